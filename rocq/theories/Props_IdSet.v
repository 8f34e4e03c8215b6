(** Generated by tools/genprops.py from IdSetFinal.v; only statements,
    each closed by the lemma of the same name with suffix _pf. *)
From Verif Require Import IdSetSpec IdSetFinal.

(** id16 and id32, for calls whose intervals (of ids and ranges) all stay below
    the largest value, or none of which starts at 1 or ends at 0.  Missing:
    sequences that do both, see [C27_builder_refuted]. *)
Theorem C27_builder_computes_union_and_difference_partial :
  forall c os, c ∈ id_packages_16_32 ->
    Forall (op_wf c) os -> Forall (op_len c) os -> Forall op_valid os ->
    guard_high c os \/ guard_low c os ->
    exists s, build c os = Ok (s, []) /\ forall v, members s v <-> history c os v.
Proof. exact C27_builder_computes_union_and_difference_partial_pf. Qed.
Print Assumptions C27_builder_computes_union_and_difference_partial.

Definition C27_ops : list bop :=
  [BAddId (MyId 0x1ff 24); BRemoveRange (range_from cfg_id32 0x110 0x11f); BAddRange (range_from cfg_id32 0x115 0x115)].
Example C27_example :
  cfg_id32 ∈ id_packages_16_32 /\
  Forall (op_wf cfg_id32) C27_ops /\ Forall (op_len cfg_id32) C27_ops /\ Forall op_valid C27_ops /\
  guard_high cfg_id32 C27_ops /\
  build cfg_id32 C27_ops =
    Ok ([range_from cfg_id32 0x100 0x10f; range_from cfg_id32 0x115 0x115; range_from cfg_id32 0x120 0x1ff], []).
Proof.
  split; [unfold id_packages_16_32; set_solver|].
  split; [by repeat constructor|]. split; [by repeat constructor|]. split; [by repeat constructor|].
  split; [|reflexivity].
  intros o a b Ho Hi. unfold C27_ops in Ho.
  apply elem_of_cons in Ho as [->|Ho].
  { destruct Hi as [Hab Hi]. assert (Hb : a <= b <= b) by (split; [done|reflexivity]).
    apply Hi in Hb. unfold covers in Hb. change (b / 256 = 1) in Hb. change (b < 4294967295).
    apply (N.lt_trans b 512); [|reflexivity].
    rewrite (N.div_mod b 256), Hb by done. apply (N.add_lt_mono_l _ 256 256). by apply N.mod_lt. }
  apply elem_of_cons in Ho as [->|Ho]; [by destruct Hi as (_ & -> & ->)|].
  apply elem_of_cons in Ho as [->|Ho]; [by destruct Hi as (_ & -> & ->)|]. by apply elem_of_nil in Ho.
Qed.

(** id64: for ids of length 1 to 32 and removals that start below 2^32. *)
Theorem C27_id64_partial :
  forall os, Forall (op_wf cfg_id64) os -> Forall op_valid os ->
    Forall (fun o => match o with BAddId x | BRemoveId x => 1 <= i_len x <= 32 | _ => True end) os ->
    (forall (o : bop) (a b : N), o ∈ os -> removes o -> op_interval cfg_id64 o a b -> a < 2 ^ 32) ->
    guard_high cfg_id64 os \/ guard_low cfg_id64 os ->
    exists s, build cfg_id64 os = Ok (s, []) /\ forall v, members s v <-> history cfg_id64 os v.
Proof. exact C27_id64_partial_pf. Qed.
Print Assumptions C27_id64_partial.

(** Most of the values are above 2^32; only the removal starts below. *)
Definition C27_64_ops : list bop :=
  [BAddRange (range_from cfg_id64 10 (2 ^ 40)); BRemoveRange (range_from cfg_id64 12 (2 ^ 33));
   BAddId (MyId (2 ^ 45 + 5) 32)].
Example C27_id64_example :
  Forall (op_wf cfg_id64) C27_64_ops /\ Forall op_valid C27_64_ops /\
  Forall (fun o => match o with BAddId x | BRemoveId x => 1 <= i_len x <= 32 | _ => True end) C27_64_ops /\
  (forall (o : bop) (a b : N), o ∈ C27_64_ops -> removes o -> op_interval cfg_id64 o a b -> a < 2 ^ 32) /\
  guard_low cfg_id64 C27_64_ops /\
  build cfg_id64 C27_64_ops =
  Ok ([range_from cfg_id64 10 11; range_from cfg_id64 (2 ^ 33 + 1) (2 ^ 40);
       range_from cfg_id64 (2 ^ 45) (2 ^ 45 + (2 ^ 32 - 1))], []).
Proof.
  split; [by repeat constructor|]. split; [by repeat constructor|]. split; [by repeat constructor|].
  split; [|split; [|reflexivity]].
  - intros o a b Ho Hr Hi. unfold C27_64_ops in Ho.
    apply elem_of_cons in Ho as [->|Ho]; [done|].
    apply elem_of_cons in Ho as [->|Ho]; [by destruct Hi as (_ & -> & ->)|].
    apply elem_of_cons in Ho as [->|Ho]; [done|]. by apply elem_of_nil in Ho.
  - intros o a b Ho Hi. unfold C27_64_ops in Ho.
    apply elem_of_cons in Ho as [->|Ho]; [by destruct Hi as (_ & -> & ->)|].
    apply elem_of_cons in Ho as [->|Ho]; [by destruct Hi as (_ & -> & ->)|].
    apply elem_of_cons in Ho as [->|Ho]; [|by apply elem_of_nil in Ho].
    destruct Hi as [Hab Hi].
    assert (Hx : covers 64 (MyId (2 ^ 45 + 5) 32) (2 ^ 45 + 5)) by done. apply Hi in Hx.
    assert (Hn : ~ covers 64 (MyId (2 ^ 45 + 5) 32) 1) by (vm_compute; discriminate).
    split; [|intros ->; destruct Hx as [_ Hx]; by destruct (2 ^ 45 + 5)].
    intros ->. apply Hn, Hi. split; [done|]. destruct Hx as [Hx1 Hx2]. eapply N.le_trans; [|exact Hx2]. done.
Qed.

(** id64: a removal that starts at 2^32 or above, inside of an added range, always
    goes wrong: the value before it is lost too. *)
Theorem C27_id64_high_removal_refuted :
  forall a b x y, a < x -> x <= b -> b < 2 ^ 64 -> x <= y -> y < 2 ^ 64 -> 2 ^ 32 <= x ->
    let os := [BAddRange (range_from cfg_id64 a b); BRemoveRange (range_from cfg_id64 x y)] in
    exists s p, build cfg_id64 os = Ok (s, []) /\ p < 2 ^ 32 - 1 /\
      s = range_from cfg_id64 a p :: (if y <? b then [range_from cfg_id64 (y + 1) b] else []) /\
      history cfg_id64 os (x - 1) /\ ~ members s (x - 1).
Proof. exact C27_id64_high_removal_refuted_pf. Qed.
Print Assumptions C27_id64_high_removal_refuted.

(** Removing 2^33..2^33+9 from 5..2^40 also removes 2^32-1..2^33-1. *)
Example C27_id64_high_example :
  build cfg_id64 [BAddRange (range_from cfg_id64 5 (2 ^ 40)); BRemoveRange (range_from cfg_id64 (2 ^ 33) (2 ^ 33 + 9))] =
  Ok ([range_from cfg_id64 5 (2 ^ 32 - 2); range_from cfg_id64 (2 ^ 33 + 10) (2 ^ 40)], []).
Proof. reflexivity. Qed.

(** Every width: adding [1,5] to the full set leaves [0,5]. *)
Theorem C27_builder_refuted :
  forall c, c ∈ id_packages ->
    build c [BAddRange (range_from c 0 (2 ^ id_w c - 1)); BAddRange (range_from c 1 5)] =
      Ok ([range_from c 0 5], []) /\
    history c [BAddRange (range_from c 0 (2 ^ id_w c - 1)); BAddRange (range_from c 1 5)] 6.
Proof. exact C27_builder_refuted_pf. Qed.
Print Assumptions C27_builder_refuted.

Example C27_refuted_example :
  build cfg_id16 [BAddRange (range_from cfg_id16 0 65535); BAddRange (range_from cfg_id16 1 5)] =
  Ok ([range_from cfg_id16 0 5], []).
Proof. reflexivity. Qed.

(** id16 and id32: every built set is canonical, whatever the calls. *)
Theorem C28_ranges_are_canonical_partial :
  forall c os s e, c ∈ id_packages_16_32 -> Forall (op_wf c) os -> Forall (op_len c) os ->
    build c os = Ok (s, e) -> canonical_set c (set_ranges s).
Proof. exact C28_ranges_are_canonical_partial_pf. Qed.
Print Assumptions C28_ranges_are_canonical_partial.

Definition C28_ops : list bop :=
  [BAddRange (range_from cfg_id16 9 3); BAddRange (range_from cfg_id16 50 60); BAddRange (range_from cfg_id16 0 10);
   BAddRange (range_from cfg_id16 11 20)].
Example C28_example :
  Forall (op_wf cfg_id16) C28_ops /\ Forall (op_len cfg_id16) C28_ops /\
  build cfg_id16 C28_ops = Ok ([range_from cfg_id16 0 20; range_from cfg_id16 50 60], [EAddRange]).
Proof. split; [by repeat constructor|]. split; [by repeat constructor|reflexivity]. Qed.

(** id64: for ids of length 1 to 32 and removals that start below 2^32. *)
Theorem C28_id64_partial :
  forall os, Forall (op_wf cfg_id64) os ->
    Forall (fun o => match o with BAddId x | BRemoveId x => 1 <= i_len x <= 32 | _ => True end) os ->
    (forall (o : bop) (a b : N), o ∈ os -> removes o -> op_interval cfg_id64 o a b -> a < 2 ^ 32) ->
    forall s e, build cfg_id64 os = Ok (s, e) -> canonical_set cfg_id64 (set_ranges s).
Proof. exact C28_id64_partial_pf. Qed.
Print Assumptions C28_id64_partial.

Definition C28_64_ops : list bop :=
  [BAddRange (range_from cfg_id64 10 (2 ^ 50)); BAddRange (range_from cfg_id64 30 25); BRemoveRange (range_from cfg_id64 12 13)].
Example C28_id64_example :
  Forall (op_wf cfg_id64) C28_64_ops /\
  (forall (o : bop) (a b : N), o ∈ C28_64_ops -> removes o -> op_interval cfg_id64 o a b -> a < 2 ^ 32) /\
  build cfg_id64 C28_64_ops = Ok ([range_from cfg_id64 10 11; range_from cfg_id64 14 (2 ^ 50)], [EAddRange]).
Proof.
  split; [by repeat constructor|]. split; [|reflexivity]. intros o a b Ho Hr Hi. unfold C28_64_ops in Ho.
  apply elem_of_cons in Ho as [->|Ho]; [done|].
  apply elem_of_cons in Ho as [->|Ho]; [done|].
  apply elem_of_cons in Ho as [->|Ho]; [by destruct Hi as (_ & -> & ->)|]. by apply elem_of_nil in Ho.
Qed.

(** All widths: a set has one canonical representation. *)
Theorem C28_canonical_representation_is_unique :
  forall c s1 s2, canonical_set c s1 -> canonical_set c s2 ->
    (forall v, members s1 v <-> members s2 v) -> s1 = s2.
Proof. exact C28_canonical_representation_is_unique_pf. Qed.
Print Assumptions C28_canonical_representation_is_unique.

Example C28_canonical_example :
  canonical_set cfg_id16 [range_from cfg_id16 0 20; range_from cfg_id16 50 60] /\
  ~ canonical_set cfg_id16 [range_from cfg_id16 0 20; range_from cfg_id16 21 60].
Proof.
  split; [split; repeat constructor; done|]. intros [_ H]. apply StronglySorted_inv in H as [_ H].
  apply Forall_cons in H as [H _]. discriminate H.
Qed.

(** id64: removing an interval above 2^32 leaves a reversed range. *)
Theorem C28_id64_refuted :
  build cfg_id64 [BAddRange (range_from cfg_id64 (2 ^ 32) (2 ^ 33));
                  BRemoveRange (range_from cfg_id64 (2 ^ 32 + 5) (2 ^ 32 + 6))] =
  Ok ([range_from cfg_id64 (2 ^ 32) 4; range_from cfg_id64 (2 ^ 32 + 7) (2 ^ 33)], []).
Proof. exact C28_id64_refuted_pf. Qed.
Print Assumptions C28_id64_refuted.

(** id16 and id32: with ids of length at most the width nothing panics, and the
    errors are exactly one for every reversed range since the last IPSet(). *)
Theorem C29_building_never_panics_partial :
  forall c os, c ∈ id_packages_16_32 -> Forall (op_wf c) os -> Forall (op_len c) os ->
    exists s, build c os = Ok (s, errors os).
Proof. exact C29_building_never_panics_partial_pf. Qed.
Print Assumptions C29_building_never_panics_partial.

Example C29_example :
  errors [BAddRange (range_from cfg_id16 9 3); BIPSet; BRemoveRange (range_from cfg_id16 9 3);
          BAddRange (range_from cfg_id16 3 9); BAddSet [range_from cfg_id16 8 1]] = [ERemoveRange; EAddRange] /\
  build cfg_id16 [BAddRange (range_from cfg_id16 9 3); BIPSet; BRemoveRange (range_from cfg_id16 9 3);
          BAddRange (range_from cfg_id16 3 9); BAddSet [range_from cfg_id16 8 1]] =
    Ok ([range_from cfg_id16 3 9], [ERemoveRange; EAddRange]).
Proof. split; reflexivity. Qed.

(** id64: for ids of length 1 to 32 and removals that start below 2^32. *)
Theorem C29_id64_partial :
  forall os, Forall (op_wf cfg_id64) os ->
    Forall (fun o => match o with BAddId x | BRemoveId x => 1 <= i_len x <= 32 | _ => True end) os ->
    (forall (o : bop) (a b : N), o ∈ os -> removes o -> op_interval cfg_id64 o a b -> a < 2 ^ 32) ->
    exists s, build cfg_id64 os = Ok (s, errors os).
Proof. exact C29_id64_partial_pf. Qed.
Print Assumptions C29_id64_partial.

Example C29_id64_example :
  errors C28_64_ops = [EAddRange] /\
  Forall (fun o => match o with BAddId x | BRemoveId x => 1 <= i_len x <= 32 | _ => True end) C28_64_ops.
Proof. split; [reflexivity|by repeat constructor]. Qed.

(** Every width: an id longer than Mask allows makes AddId and RemoveId panic. *)
Theorem C29_long_id_panics_refuted :
  forall c x s, c ∈ id_packages -> id_masklim c < i_len x ->
    b_step c s (BAddId x) = Panic /\ b_step c s (BRemoveId x) = Panic.
Proof. exact C29_long_id_panics_refuted_pf. Qed.
Print Assumptions C29_long_id_panics_refuted.

Example C29_long_example : id_masklim cfg_id16 < 17 /\ build cfg_id16 [BAddId (MyId 3 17)] = Panic.
Proof. split; reflexivity. Qed.

(** id64: valid ranges alone can panic. *)
Theorem C29_id64_ranges_panic_refuted :
  build cfg_id64 [BAddRange (range_from cfg_id64 (2 ^ 32) (2 ^ 33));
                  BRemoveRange (range_from cfg_id64 (2 ^ 32 + 5) (2 ^ 32 + 6)); BIPSet;
                  BRemoveRange (range_from cfg_id64 7 8)] = Panic.
Proof. exact C29_id64_ranges_panic_refuted_pf. Qed.
Print Assumptions C29_id64_ranges_panic_refuted.

(** id16 and id32, every canonical set (every built set is one), every length up
    to the width. *)
Theorem C30_remove_free_prefix_partial :
  forall c s l, c ∈ id_packages_16_32 -> canonical_set c s -> l <= id_w c ->
    exists o, remove_free_prefix c s l = Ok o /\
      match o with
      | None => ~ exists p, i_len p = l /\ i_id p < 2 ^ id_w c /\
                            forall v, covers (id_w c) p v -> members s v
      | Some (p, s') =>
          i_len p = l /\ canonical (id_w c) p /\
          (forall v, covers (id_w c) p v -> members s v) /\
          canonical_set c s' /\
          forall v, members s' v <-> members s v /\ ~ covers (id_w c) p v
      end.
Proof. exact C30_remove_free_prefix_partial_pf. Qed.
Print Assumptions C30_remove_free_prefix_partial.

Example C30_example :
  canonical_set cfg_id16 [range_from cfg_id16 3 9; range_from cfg_id16 64 127] /\
  remove_free_prefix cfg_id16 [range_from cfg_id16 3 9; range_from cfg_id16 64 127] 15 =
    Ok (Some (MyId 8 15, [range_from cfg_id16 3 7; range_from cfg_id16 64 127])) /\
  remove_free_prefix cfg_id16 [range_from cfg_id16 3 9; range_from cfg_id16 64 127] 9 = Ok None.
Proof. split; [split; repeat constructor; done|]. split; reflexivity. Qed.

(** id16 and id32: IDs() of every canonical set. *)
Theorem C57_ids_of_a_set_partial :
  forall c s, c ∈ id_packages_16_32 -> canonical_set c s ->
    exists l, set_ids c s = Ok l /\ Forall (canonical (id_w c)) l /\ StronglySorted (before (id_w c)) l /\
      (forall v, members s v <-> exists x, x ∈ l /\ covers (id_w c) x v) /\
      (forall l', Forall (fun x => i_len x <= id_w c) l' ->
         (forall v, members s v <-> exists x, x ∈ l' /\ covers (id_w c) x v) -> (length l <= length l')%nat).
Proof. exact C57_ids_of_a_set_partial_pf. Qed.
Print Assumptions C57_ids_of_a_set_partial.

Example C57_example :
  set_ids cfg_id16 [range_from cfg_id16 3 9; range_from cfg_id16 20 20] =
  Ok [MyId 3 16; MyId 4 14; MyId 8 15; MyId 20 16].
Proof. reflexivity. Qed.

(** id64: IDs() of a canonical set is right exactly if it is right for each of
    its ranges (see C24). *)
Theorem C57_id64_exactly_outside_bad_ranges_partial :
  forall s, canonical_set cfg_id64 s ->
    ((exists l, set_ids cfg_id64 s = Ok l /\ Forall (canonical 64) l /\ StronglySorted (before 64) l /\
       (forall v, members s v <-> exists x, x ∈ l /\ covers 64 x v) /\
       (forall l', Forall (fun x => i_len x <= 64) l' ->
          (forall v, members s v <-> exists x, x ∈ l' /\ covers 64 x v) -> (length l <= length l')%nat))
     <-> forall r, r ∈ s -> ~ id64_bad_range (i_id (r_from r)) (i_id (r_to r))).
Proof. exact C57_id64_exactly_outside_bad_ranges_partial_pf. Qed.
Print Assumptions C57_id64_exactly_outside_bad_ranges_partial.

Example C57_id64_example :
  set_ids cfg_id64 [range_from cfg_id64 3 9; range_from cfg_id64 20 (2 ^ 63 + 1)] =
    Ok ([MyId 3 64; MyId 4 62; MyId 8 63; MyId 20 62; MyId 24 61] ++
        map (fun l => MyId (2 ^ (64 - l)) l) (map N.of_nat (rev (seq 2 58))) ++ [MyId (2 ^ 63) 63]) /\
  id64_bad_range (2 ^ 32) (2 ^ 64 - 1) /\
  set_ids cfg_id64 [range_from cfg_id64 3 9; range_from cfg_id64 (2 ^ 32) (2 ^ 64 - 1)] =
    Ok [MyId 3 64; MyId 4 62; MyId 8 63; MyId (2 ^ 32) 0].
Proof.
  split; [vm_compute; reflexivity|]. split; [|vm_compute; reflexivity].
  split; [split; done|]. split; [done|]. split; [done|]. by intros [? _].
Qed.

(** id64: IDs() of the set of the values up to 2^63 + 2^32 - 1 covers every value. *)
Theorem C57_id64_refuted :
  canonical_set cfg_id64 [range_from cfg_id64 0 (2 ^ 63 + 2 ^ 32 - 1)] /\
  set_ids cfg_id64 [range_from cfg_id64 0 (2 ^ 63 + 2 ^ 32 - 1)] = Ok [MyId 0 0] /\
  covers 64 (MyId 0 0) (2 ^ 64 - 1).
Proof. exact C57_id64_refuted_pf. Qed.
Print Assumptions C57_id64_refuted.

(** id16 and id32, every canonical set, every length up to the width. *)
Theorem C58_remove_free_prefix_is_best_fit_partial :
  forall c s l p s', c ∈ id_packages_16_32 -> canonical_set c s -> l <= id_w c ->
    remove_free_prefix c s l = Ok (Some (p, s')) ->
    exists b, canonical (id_w c) b /\ (forall v, covers (id_w c) b v -> members s v) /\
      maximal_in (id_w c) (members s) b /\ i_len b <= l /\ i_id p = i_id b /\
      forall q, canonical (id_w c) q -> (forall v, covers (id_w c) q v -> members s v) ->
        maximal_in (id_w c) (members s) q -> i_len q <= l ->
        i_len q < i_len b \/ (i_len q = i_len b /\ i_id b <= i_id q).
Proof. exact C58_remove_free_prefix_is_best_fit_partial_pf. Qed.
Print Assumptions C58_remove_free_prefix_is_best_fit_partial.

Example C58_example :
  remove_free_prefix cfg_id16 [range_from cfg_id16 3 9; range_from cfg_id16 64 127] 13 =
    Ok (Some (MyId 64 13, [range_from cfg_id16 3 9; range_from cfg_id16 72 127])) /\
  set_ids cfg_id16 [range_from cfg_id16 3 9; range_from cfg_id16 64 127] =
    Ok [MyId 3 16; MyId 4 14; MyId 8 15; MyId 64 10].
Proof. split; reflexivity. Qed.

(** id64, every canonical set without bad ranges (see C24). *)
Theorem C58_id64_is_best_fit_partial :
  forall s l p s', canonical_set cfg_id64 s ->
    (forall r, r ∈ s -> ~ id64_bad_range (i_id (r_from r)) (i_id (r_to r))) ->
    remove_free_prefix cfg_id64 s l = Ok (Some (p, s')) ->
    exists b, canonical 64 b /\ (forall v, covers 64 b v -> members s v) /\
      maximal_in 64 (members s) b /\ i_len b <= l /\ i_id p = i_id b /\
      forall q, canonical 64 q -> (forall v, covers 64 q v -> members s v) ->
        maximal_in 64 (members s) q -> i_len q <= l ->
        i_len q < i_len b \/ (i_len q = i_len b /\ i_id b <= i_id q).
Proof. exact C58_id64_is_best_fit_partial_pf. Qed.
Print Assumptions C58_id64_is_best_fit_partial.

Definition C58_64_set : idset := [range_from cfg_id64 (2 ^ 34) (2 ^ 35 - 1); range_from cfg_id64 (2 ^ 40) (2 ^ 40 + 2 ^ 33 - 1)].
Example C58_id64_example :
  canonical_set cfg_id64 C58_64_set /\
  (forall r, r ∈ C58_64_set -> ~ id64_bad_range (i_id (r_from r)) (i_id (r_to r))) /\
  remove_free_prefix cfg_id64 C58_64_set 32 =
    Ok (Some (MyId (2 ^ 40) 32, [range_from cfg_id64 (2 ^ 34) (2 ^ 35 - 1); range_from cfg_id64 (2 ^ 40 + 2 ^ 32) (2 ^ 40 + 2 ^ 33 - 1)])).
Proof.
  split; [split; repeat constructor; done|]. split; [|vm_compute; reflexivity].
  intros r Hr ((_ & H) & _). unfold C58_64_set in Hr.
  apply elem_of_cons in Hr as [->|Hr]; [by vm_compute in H|].
  apply elem_of_cons in Hr as [->|Hr]; [by vm_compute in H|]. by apply elem_of_nil in Hr.
Qed.

(** id64: for every length above 32 RemoveFreePrefix panics exactly if there is a
    block to return. *)
Theorem C30_id64_long_prefixes_refuted :
  forall s l, canonical_set cfg_id64 s ->
    (forall r, r ∈ s -> ~ id64_bad_range (i_id (r_from r)) (i_id (r_to r))) -> 32 < l <= 64 ->
    let free p := i_len p = l /\ canonical 64 p /\ forall v, covers 64 p v -> members s v in
    ((exists p, free p) -> remove_free_prefix cfg_id64 s l = Panic) /\
    (~ (exists p, free p) -> remove_free_prefix cfg_id64 s l = Ok None).
Proof. exact C30_id64_long_prefixes_refuted_pf. Qed.
Print Assumptions C30_id64_long_prefixes_refuted.

Example C30_id64_long_example :
  canonical_set cfg_id64 [range_from cfg_id64 3 9] /\ ~ id64_bad_range 3 9 /\
  remove_free_prefix cfg_id64 [range_from cfg_id64 3 9] 63 = Panic /\
  remove_free_prefix cfg_id64 [range_from cfg_id64 3 9] 61 = Ok None.
Proof.
  split; [split; repeat constructor; done|]. split; [|split; reflexivity].
  intros (_ & H & _). discriminate H.
Qed.

(** id64, lengths 0 to 32: if there is a free block, one is returned; the set
    returned with it is right exactly if the block is the first one of all ids or
    a range of the set starts with it.  Otherwise the value before the block is lost. *)
Theorem C30_id64_short_prefixes_partial :
  forall s l, canonical_set cfg_id64 s ->
    (forall r, r ∈ s -> ~ id64_bad_range (i_id (r_from r)) (i_id (r_to r))) -> l <= 32 ->
    let free p := i_len p = l /\ canonical 64 p /\ forall v, covers 64 p v -> members s v in
    (~ (exists p, free p) -> remove_free_prefix cfg_id64 s l = Ok None) /\
    ((exists p, free p) -> exists p s', remove_free_prefix cfg_id64 s l = Ok (Some (p, s')) /\ free p /\
       let right := forall v, members s' v <-> members s v /\ ~ covers 64 p v in
       (right <-> i_id p = 0 \/ exists r, r ∈ s /\ i_id (r_from r) = i_id p) /\
       (right -> canonical_set cfg_id64 s') /\
       (~ right -> members s (i_id p - 1) /\ ~ covers 64 p (i_id p - 1) /\ ~ members s' (i_id p - 1))).
Proof. exact C30_id64_short_prefixes_partial_pf. Qed.
Print Assumptions C30_id64_short_prefixes_partial.

Example C30_id64_short_example :
  canonical_set cfg_id64 [range_from cfg_id64 5 (2 ^ 33 + 10)] /\ ~ id64_bad_range 5 (2 ^ 33 + 10) /\
  remove_free_prefix cfg_id64 [range_from cfg_id64 5 (2 ^ 33 + 10)] 32 =
    Ok (Some (MyId (2 ^ 32) 32, [range_from cfg_id64 5 (2 ^ 32 - 2); range_from cfg_id64 (2 ^ 33) (2 ^ 33 + 10)])) /\
  remove_free_prefix cfg_id64 [range_from cfg_id64 (2 ^ 32) (2 ^ 33 + 10)] 32 =
    Ok (Some (MyId (2 ^ 32) 32, [range_from cfg_id64 (2 ^ 33) (2 ^ 33 + 10)])) /\
  remove_free_prefix cfg_id64 [range_from cfg_id64 5 (2 ^ 33 + 10)] 31 = Ok None /\
  remove_free_prefix cfg_id64 [range_from cfg_id64 0 (2 ^ 64 - 1)] 0 = Ok (Some (MyId 0 0, [])) /\
  remove_free_prefix cfg_id64 [range_from cfg_id64 5 (2 ^ 64 - 1)] 0 = Ok None.
Proof.
  split; [split; repeat constructor; done|]. split; [intros (_ & H & _); discriminate H|].
  repeat split; vm_compute; reflexivity.
Qed.

(** id64: on a one-element set RemoveFreePrefix(64) panics. *)
Theorem C30_id64_refuted :
  canonical_set cfg_id64 [range_from cfg_id64 7 7] /\
  remove_free_prefix cfg_id64 [range_from cfg_id64 7 7] 64 = Panic.
Proof. exact C30_id64_refuted_pf. Qed.
Print Assumptions C30_id64_refuted.

(** id64: of a set that is one range of the kind C24 describes, RemoveFreePrefix
    takes a prefix that starts at the lower bound, aligned or not: an unaligned one
    has values that are not in the set. *)
Theorem C30_id64_bad_range_refuted :
  forall a b l, a <= b -> b < 2 ^ 64 -> id64_bad_range a b -> 1 <= l <= 32 ->
    exists s', remove_free_prefix cfg_id64 [range_from cfg_id64 a b] l = Ok (Some (MyId a l, s')) /\
      (forall v, members s' v <-> a <= v <= b /\ ~ covers 64 (MyId a l) v) /\
      (a mod 2 ^ (64 - l) <> 0 -> exists v, covers 64 (MyId a l) v /\ ~ members [range_from cfg_id64 a b] v).
Proof. exact C30_id64_bad_range_refuted_pf. Qed.
Print Assumptions C30_id64_bad_range_refuted.

(** The values from 2^32 on; the prefix returned contains 0 as well. *)
Example C30_id64_bad_range_example :
  canonical_set cfg_id64 [range_from cfg_id64 (2 ^ 32) (2 ^ 64 - 1)] /\ id64_bad_range (2 ^ 32) (2 ^ 64 - 1) /\
  2 ^ 32 mod 2 ^ (64 - 3) <> 0 /\ covers 64 (MyId (2 ^ 32) 3) 0 /\
  remove_free_prefix cfg_id64 [range_from cfg_id64 (2 ^ 32) (2 ^ 64 - 1)] 3 =
    Ok (Some (MyId (2 ^ 32) 3, [range_from cfg_id64 (2 ^ 61) (2 ^ 64 - 1)])).
Proof.
  split; [split; repeat constructor; done|].
  split; [split; [split; done|]; split; [done|]; split; [done|]; by intros [? _]|].
  split; [done|]. split; vm_compute; reflexivity.
Qed.

(** id64: of such a set RemoveFreePrefix(0) returns a prefix, although no block of
    all ids is free. *)
Theorem C58_id64_refuted :
  forall a b, a <= b -> b < 2 ^ 64 -> id64_bad_range a b ->
    remove_free_prefix cfg_id64 [range_from cfg_id64 a b] 0 = Ok (Some (MyId a 0, [])) /\
    ~ exists q, canonical 64 q /\ i_len q <= 0 /\ forall v, covers 64 q v -> members [range_from cfg_id64 a b] v.
Proof. exact C58_id64_refuted_pf. Qed.
Print Assumptions C58_id64_refuted.

Example C58_id64_refuted_example :
  id64_bad_range 0 (2 ^ 63 + 2 ^ 32 - 1) /\
  remove_free_prefix cfg_id64 [range_from cfg_id64 0 (2 ^ 63 + 2 ^ 32 - 1)] 0 = Ok (Some (MyId 0 0, [])).
Proof.
  split; [split; [split; done|]; split; [done|]; split; [done|]; by intros [_ ?]|]. vm_compute. reflexivity.
Qed.
