(*@ C27_builder_computes_union_and_difference_partial *)
Definition C27_ops : list bop :=
  [BAddId (MyId 0x1ff 24); BRemoveRange (range_from cfg_id32 0x110 0x11f); BAddRange (range_from cfg_id32 0x115 0x115)].
Example C27_example :
  cfg_id32 ∈ id_packages_16_32 /\
  Forall (op_wf cfg_id32) C27_ops /\ Forall (op_len cfg_id32) C27_ops /\ Forall op_valid C27_ops /\
  guard_high cfg_id32 C27_ops /\
  build cfg_id32 C27_ops =
    Ok ([range_from cfg_id32 0x100 0x10f; range_from cfg_id32 0x115 0x115; range_from cfg_id32 0x120 0x1ff], []).
Proof.
  split; [unfold id_packages_16_32; set_solver|].
  split; [by repeat constructor|]. split; [by repeat constructor|]. split; [by repeat constructor|].
  split; [|reflexivity].
  intros o a b Ho Hi. unfold C27_ops in Ho.
  apply elem_of_cons in Ho as [->|Ho].
  { destruct Hi as [Hab Hi]. assert (Hb : a <= b <= b) by (split; [done|reflexivity]).
    apply Hi in Hb. unfold covers in Hb. change (b / 256 = 1) in Hb. change (b < 4294967295).
    apply (N.lt_trans b 512); [|reflexivity].
    rewrite (N.div_mod b 256), Hb by done. apply (N.add_lt_mono_l _ 256 256). by apply N.mod_lt. }
  apply elem_of_cons in Ho as [->|Ho]; [by destruct Hi as (_ & -> & ->)|].
  apply elem_of_cons in Ho as [->|Ho]; [by destruct Hi as (_ & -> & ->)|]. by apply elem_of_nil in Ho.
Qed.
(*@ C27_id64_partial *)
(** Most of the values are above 2^32; only the removal starts below. *)
Definition C27_64_ops : list bop :=
  [BAddRange (range_from cfg_id64 10 (2 ^ 40)); BRemoveRange (range_from cfg_id64 12 (2 ^ 33));
   BAddId (MyId (2 ^ 45 + 5) 32)].
Example C27_id64_example :
  Forall (op_wf cfg_id64) C27_64_ops /\ Forall op_valid C27_64_ops /\
  Forall (fun o => match o with BAddId x | BRemoveId x => 1 <= i_len x <= 32 | _ => True end) C27_64_ops /\
  (forall (o : bop) (a b : N), o ∈ C27_64_ops -> removes o -> op_interval cfg_id64 o a b -> a < 2 ^ 32) /\
  guard_low cfg_id64 C27_64_ops /\
  build cfg_id64 C27_64_ops =
  Ok ([range_from cfg_id64 10 11; range_from cfg_id64 (2 ^ 33 + 1) (2 ^ 40);
       range_from cfg_id64 (2 ^ 45) (2 ^ 45 + (2 ^ 32 - 1))], []).
Proof.
  split; [by repeat constructor|]. split; [by repeat constructor|]. split; [by repeat constructor|].
  split; [|split; [|reflexivity]].
  - intros o a b Ho Hr Hi. unfold C27_64_ops in Ho.
    apply elem_of_cons in Ho as [->|Ho]; [done|].
    apply elem_of_cons in Ho as [->|Ho]; [by destruct Hi as (_ & -> & ->)|].
    apply elem_of_cons in Ho as [->|Ho]; [done|]. by apply elem_of_nil in Ho.
  - intros o a b Ho Hi. unfold C27_64_ops in Ho.
    apply elem_of_cons in Ho as [->|Ho]; [by destruct Hi as (_ & -> & ->)|].
    apply elem_of_cons in Ho as [->|Ho]; [by destruct Hi as (_ & -> & ->)|].
    apply elem_of_cons in Ho as [->|Ho]; [|by apply elem_of_nil in Ho].
    destruct Hi as [Hab Hi].
    assert (Hx : covers 64 (MyId (2 ^ 45 + 5) 32) (2 ^ 45 + 5)) by done. apply Hi in Hx.
    assert (Hn : ~ covers 64 (MyId (2 ^ 45 + 5) 32) 1) by (vm_compute; discriminate).
    split; [|intros ->; destruct Hx as [_ Hx]; by destruct (2 ^ 45 + 5)].
    intros ->. apply Hn, Hi. split; [done|]. destruct Hx as [Hx1 Hx2]. eapply N.le_trans; [|exact Hx2]. done.
Qed.
(*@ C27_id64_high_removal_refuted *)
(** Removing 2^33..2^33+9 from 5..2^40 also removes 2^32-1..2^33-1. *)
Example C27_id64_high_example :
  build cfg_id64 [BAddRange (range_from cfg_id64 5 (2 ^ 40)); BRemoveRange (range_from cfg_id64 (2 ^ 33) (2 ^ 33 + 9))] =
  Ok ([range_from cfg_id64 5 (2 ^ 32 - 2); range_from cfg_id64 (2 ^ 33 + 10) (2 ^ 40)], []).
Proof. reflexivity. Qed.
(*@ C27_builder_refuted *)
Example C27_refuted_example :
  build cfg_id16 [BAddRange (range_from cfg_id16 0 65535); BAddRange (range_from cfg_id16 1 5)] =
  Ok ([range_from cfg_id16 0 5], []).
Proof. reflexivity. Qed.
(*@ C28_ranges_are_canonical_partial *)
Definition C28_ops : list bop :=
  [BAddRange (range_from cfg_id16 9 3); BAddRange (range_from cfg_id16 50 60); BAddRange (range_from cfg_id16 0 10);
   BAddRange (range_from cfg_id16 11 20)].
Example C28_example :
  Forall (op_wf cfg_id16) C28_ops /\ Forall (op_len cfg_id16) C28_ops /\
  build cfg_id16 C28_ops = Ok ([range_from cfg_id16 0 20; range_from cfg_id16 50 60], [EAddRange]).
Proof. split; [by repeat constructor|]. split; [by repeat constructor|reflexivity]. Qed.
(*@ C28_canonical_representation_is_unique *)
Example C28_canonical_example :
  canonical_set cfg_id16 [range_from cfg_id16 0 20; range_from cfg_id16 50 60] /\
  ~ canonical_set cfg_id16 [range_from cfg_id16 0 20; range_from cfg_id16 21 60].
Proof.
  split; [split; repeat constructor; done|]. intros [_ H]. apply StronglySorted_inv in H as [_ H].
  apply Forall_cons in H as [H _]. discriminate H.
Qed.
(*@ C29_building_never_panics_partial *)
Example C29_example :
  errors [BAddRange (range_from cfg_id16 9 3); BIPSet; BRemoveRange (range_from cfg_id16 9 3);
          BAddRange (range_from cfg_id16 3 9); BAddSet [range_from cfg_id16 8 1]] = [ERemoveRange; EAddRange] /\
  build cfg_id16 [BAddRange (range_from cfg_id16 9 3); BIPSet; BRemoveRange (range_from cfg_id16 9 3);
          BAddRange (range_from cfg_id16 3 9); BAddSet [range_from cfg_id16 8 1]] =
    Ok ([range_from cfg_id16 3 9], [ERemoveRange; EAddRange]).
Proof. split; reflexivity. Qed.
(*@ C29_long_id_panics_refuted *)
Example C29_long_example : id_masklim cfg_id16 < 17 /\ build cfg_id16 [BAddId (MyId 3 17)] = Panic.
Proof. split; reflexivity. Qed.
(*@ C30_remove_free_prefix_partial *)
Example C30_example :
  canonical_set cfg_id16 [range_from cfg_id16 3 9; range_from cfg_id16 64 127] /\
  remove_free_prefix cfg_id16 [range_from cfg_id16 3 9; range_from cfg_id16 64 127] 15 =
    Ok (Some (MyId 8 15, [range_from cfg_id16 3 7; range_from cfg_id16 64 127])) /\
  remove_free_prefix cfg_id16 [range_from cfg_id16 3 9; range_from cfg_id16 64 127] 9 = Ok None.
Proof. split; [split; repeat constructor; done|]. split; reflexivity. Qed.
(*@ C57_ids_of_a_set_partial *)
Example C57_example :
  set_ids cfg_id16 [range_from cfg_id16 3 9; range_from cfg_id16 20 20] =
  Ok [MyId 3 16; MyId 4 14; MyId 8 15; MyId 20 16].
Proof. reflexivity. Qed.
(*@ C58_remove_free_prefix_is_best_fit_partial *)
Example C58_example :
  remove_free_prefix cfg_id16 [range_from cfg_id16 3 9; range_from cfg_id16 64 127] 13 =
    Ok (Some (MyId 64 13, [range_from cfg_id16 3 9; range_from cfg_id16 72 127])) /\
  set_ids cfg_id16 [range_from cfg_id16 3 9; range_from cfg_id16 64 127] =
    Ok [MyId 3 16; MyId 4 14; MyId 8 15; MyId 64 10].
Proof. split; reflexivity. Qed.
(*@ C58_id64_is_best_fit_partial *)
Definition C58_64_set : idset := [range_from cfg_id64 (2 ^ 34) (2 ^ 35 - 1); range_from cfg_id64 (2 ^ 40) (2 ^ 40 + 2 ^ 33 - 1)].
Example C58_id64_example :
  canonical_set cfg_id64 C58_64_set /\
  (forall r, r ∈ C58_64_set -> ~ id64_bad_range (i_id (r_from r)) (i_id (r_to r))) /\
  remove_free_prefix cfg_id64 C58_64_set 32 =
    Ok (Some (MyId (2 ^ 40) 32, [range_from cfg_id64 (2 ^ 34) (2 ^ 35 - 1); range_from cfg_id64 (2 ^ 40 + 2 ^ 32) (2 ^ 40 + 2 ^ 33 - 1)])).
Proof.
  split; [split; repeat constructor; done|]. split; [|vm_compute; reflexivity].
  intros r Hr ((_ & H) & _). unfold C58_64_set in Hr.
  apply elem_of_cons in Hr as [->|Hr]; [by vm_compute in H|].
  apply elem_of_cons in Hr as [->|Hr]; [by vm_compute in H|]. by apply elem_of_nil in Hr.
Qed.
(*@ C28_id64_partial *)
Definition C28_64_ops : list bop :=
  [BAddRange (range_from cfg_id64 10 (2 ^ 50)); BAddRange (range_from cfg_id64 30 25); BRemoveRange (range_from cfg_id64 12 13)].
Example C28_id64_example :
  Forall (op_wf cfg_id64) C28_64_ops /\
  (forall (o : bop) (a b : N), o ∈ C28_64_ops -> removes o -> op_interval cfg_id64 o a b -> a < 2 ^ 32) /\
  build cfg_id64 C28_64_ops = Ok ([range_from cfg_id64 10 11; range_from cfg_id64 14 (2 ^ 50)], [EAddRange]).
Proof.
  split; [by repeat constructor|]. split; [|reflexivity]. intros o a b Ho Hr Hi. unfold C28_64_ops in Ho.
  apply elem_of_cons in Ho as [->|Ho]; [done|].
  apply elem_of_cons in Ho as [->|Ho]; [done|].
  apply elem_of_cons in Ho as [->|Ho]; [by destruct Hi as (_ & -> & ->)|]. by apply elem_of_nil in Ho.
Qed.
(*@ C29_id64_partial *)
Example C29_id64_example :
  errors C28_64_ops = [EAddRange] /\
  Forall (fun o => match o with BAddId x | BRemoveId x => 1 <= i_len x <= 32 | _ => True end) C28_64_ops.
Proof. split; [reflexivity|by repeat constructor]. Qed.
(*@ C30_id64_long_prefixes_refuted *)
Example C30_id64_long_example :
  canonical_set cfg_id64 [range_from cfg_id64 3 9] /\ ~ id64_bad_range 3 9 /\
  remove_free_prefix cfg_id64 [range_from cfg_id64 3 9] 63 = Panic /\
  remove_free_prefix cfg_id64 [range_from cfg_id64 3 9] 61 = Ok None.
Proof.
  split; [split; repeat constructor; done|]. split; [|split; reflexivity].
  intros (_ & H & _). discriminate H.
Qed.
(*@ C30_id64_short_prefixes_partial *)
Example C30_id64_short_example :
  canonical_set cfg_id64 [range_from cfg_id64 5 (2 ^ 33 + 10)] /\ ~ id64_bad_range 5 (2 ^ 33 + 10) /\
  remove_free_prefix cfg_id64 [range_from cfg_id64 5 (2 ^ 33 + 10)] 32 =
    Ok (Some (MyId (2 ^ 32) 32, [range_from cfg_id64 5 (2 ^ 32 - 2); range_from cfg_id64 (2 ^ 33) (2 ^ 33 + 10)])) /\
  remove_free_prefix cfg_id64 [range_from cfg_id64 (2 ^ 32) (2 ^ 33 + 10)] 32 =
    Ok (Some (MyId (2 ^ 32) 32, [range_from cfg_id64 (2 ^ 33) (2 ^ 33 + 10)])) /\
  remove_free_prefix cfg_id64 [range_from cfg_id64 5 (2 ^ 33 + 10)] 31 = Ok None /\
  remove_free_prefix cfg_id64 [range_from cfg_id64 0 (2 ^ 64 - 1)] 0 = Ok (Some (MyId 0 0, [])) /\
  remove_free_prefix cfg_id64 [range_from cfg_id64 5 (2 ^ 64 - 1)] 0 = Ok None.
Proof.
  split; [split; repeat constructor; done|]. split; [intros (_ & H & _); discriminate H|].
  repeat split; vm_compute; reflexivity.
Qed.
(*@ C57_id64_exactly_outside_bad_ranges_partial *)
Example C57_id64_example :
  set_ids cfg_id64 [range_from cfg_id64 3 9; range_from cfg_id64 20 (2 ^ 63 + 1)] =
    Ok ([MyId 3 64; MyId 4 62; MyId 8 63; MyId 20 62; MyId 24 61] ++
        map (fun l => MyId (2 ^ (64 - l)) l) (map N.of_nat (rev (seq 2 58))) ++ [MyId (2 ^ 63) 63]) /\
  id64_bad_range (2 ^ 32) (2 ^ 64 - 1) /\
  set_ids cfg_id64 [range_from cfg_id64 3 9; range_from cfg_id64 (2 ^ 32) (2 ^ 64 - 1)] =
    Ok [MyId 3 64; MyId 4 62; MyId 8 63; MyId (2 ^ 32) 0].
Proof.
  split; [vm_compute; reflexivity|]. split; [|vm_compute; reflexivity].
  split; [split; done|]. split; [done|]. split; [done|]. by intros [? _].
Qed.

(*@ C30_id64_bad_range_refuted *)
(** The values from 2^32 on; the prefix returned contains 0 as well. *)
Example C30_id64_bad_range_example :
  canonical_set cfg_id64 [range_from cfg_id64 (2 ^ 32) (2 ^ 64 - 1)] /\ id64_bad_range (2 ^ 32) (2 ^ 64 - 1) /\
  2 ^ 32 mod 2 ^ (64 - 3) <> 0 /\ covers 64 (MyId (2 ^ 32) 3) 0 /\
  remove_free_prefix cfg_id64 [range_from cfg_id64 (2 ^ 32) (2 ^ 64 - 1)] 3 =
    Ok (Some (MyId (2 ^ 32) 3, [range_from cfg_id64 (2 ^ 61) (2 ^ 64 - 1)])).
Proof.
  split; [split; repeat constructor; done|].
  split; [split; [split; done|]; split; [done|]; split; [done|]; by intros [? _]|].
  split; [done|]. split; vm_compute; reflexivity.
Qed.
(*@ C58_id64_refuted *)
Example C58_id64_refuted_example :
  id64_bad_range 0 (2 ^ 63 + 2 ^ 32 - 1) /\
  remove_free_prefix cfg_id64 [range_from cfg_id64 0 (2 ^ 63 + 2 ^ 32 - 1)] 0 = Ok (Some (MyId 0 0, [])).
Proof.
  split; [split; [split; done|]; split; [done|]; split; [done|]; by intros [_ ?]|]. vm_compute. reflexivity.
Qed.
