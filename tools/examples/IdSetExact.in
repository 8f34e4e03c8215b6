(*@ C86_built_set_is_what_the_calls_amount_to *)
(** Id 0 removed from all ids, then a reversed range, 1..5 and the set 40..50 added:
    6..39 and 51..65535, added at first, are lost. *)
Definition C86_ops : list bop :=
  [BAddId (MyId 0 0); BRemoveRange (range_from cfg_id16 0 0); BAddRange (range_from cfg_id16 9 3);
   BAddRange (range_from cfg_id16 1 5); BAddSet [range_from cfg_id16 40 50]].
Example C86_example :
  Forall (op_wf cfg_id16) C86_ops /\ Forall (op_len cfg_id16) C86_ops /\
  build cfg_id16 C86_ops = Ok ([range_from cfg_id16 1 5; range_from cfg_id16 40 50], [EAddRange]) /\
  holds cfg_id16 [] [] C86_ops
    [range_from cfg_id16 1 65535; range_from cfg_id16 1 5; range_from cfg_id16 40 50] [].
Proof.
  split; [by repeat constructor|]. split; [by repeat constructor|]. split; [reflexivity|].
  eapply holds_next.
  { apply (hs_add_id _ _ _ _ (range_from cfg_id16 0 65535)); [|apply ha_add; done].
    split; [by repeat split|]. intros v. unfold in_range, covers. change (0 <= v <= 65535 <-> v / 65536 = 0).
    split; [intros H; apply N.div_small; lia|]. intros H. pose proof (N.div_mod v 65536) as Hd.
    pose proof (N.mod_lt v 65536). rewrite H in Hd. lia. }
  eapply holds_next; [by apply hs_remove_range|].
  eapply holds_next; [by apply hs_add_range, ha_reversed|].
  eapply holds_next.
  { apply hs_add_range, (ha_first _ _ _ [range_from cfg_id16 1 65535]); [done|done|].
    split; [split; [|by repeat constructor]; constructor; [|constructor]; by repeat split|].
    assert (Hs : forall r, ~ lossy cfg_id16 [r]).
    { intros r [(a & Ha & Hw) (b & Hb & Ho)]. apply elem_of_list_singleton in Ha, Hb. subst.
      destruct Hw as [_ Hw], Ho as [_ Ho]. rewrite Hw in Ho. by apply N.lt_irrefl in Ho. }
    assert (Hone : forall r v, amounts cfg_id16 [r] v <-> in_range r v).
    { intros r v. split.
      - intros (a & Ha & H & _). by apply elem_of_list_singleton in Ha as ->.
      - intros H. exists r. split; [by apply elem_of_list_singleton|]. split; [done|]. intros Hl. by apply Hs in Hl. }
    intros v. rewrite (Hone (range_from cfg_id16 0 65535)), (Hone (range_from cfg_id16 0 0)).
    assert (Hm : members [range_from cfg_id16 1 65535] v <-> in_range (range_from cfg_id16 1 65535) v).
    { split; [intros (a & Ha & H); by apply elem_of_list_singleton in Ha as ->|].
      intros H. exists (range_from cfg_id16 1 65535). split; [by apply elem_of_list_singleton|done]. }
    rewrite Hm. unfold in_range. cbn [range_from r_from r_to i_id]. lia. }
  eapply holds_next; [|apply holds_end].
  apply hs_add_set. eapply haa_next; [by apply ha_add|apply haa_end].
Qed.
(*@ C86_additions_then_removals *)
(** 3 was added and never removed. *)
Example C86_additions_then_removals_example :
  build cfg_id16 (map BAddRange [range_from cfg_id16 0 3; range_from cfg_id16 1 65535; range_from cfg_id16 1 2] ++
                  map BRemoveRange [range_from cfg_id16 2 2]) =
    Ok ([range_from cfg_id16 0 1], []).
Proof. reflexivity. Qed.
(*@ C86_union_is_lost_exactly_when *)
(** With 3..max added too, nothing is lost. *)
Example C86_union_is_lost_example :
  build cfg_id16 (map BAddRange [range_from cfg_id16 1 65535; range_from cfg_id16 1 2; range_from cfg_id16 4 65535]) =
    Ok ([range_from cfg_id16 1 2; range_from cfg_id16 4 65535], []) /\
  build cfg_id16 (map BAddRange [range_from cfg_id16 1 65535; range_from cfg_id16 1 2; range_from cfg_id16 3 65535]) =
    Ok ([range_from cfg_id16 1 65535], []).
Proof. split; reflexivity. Qed.
(*@ C87_zero_range *)
(** An id of one value of id64, whose Mask stops at 32; and the range of id 0 alone is not zero. *)
Example C87_example :
  cfg_id64 ∈ id_packages /\ range_of_id cfg_id64 (MyId 7 64) = Ok None /\
  range_of_id cfg_id32 (MyId 0 32) = Ok (Some (range_from cfg_id32 0 0)) /\
  range_is_zero (Some (range_from cfg_id32 0 0)) = false.
Proof. split; [unfold id_packages; set_solver|]. by repeat split. Qed.
(*@ C86_id64_built_set *)
(** Id 0 removed from 0..max and the wrap-around as on the other widths. *)
Definition C86_64_ops : list bop :=
  [BAddRange (range_from cfg_id64 0 (2 ^ 64 - 1)); BRemoveRange (range_from cfg_id64 0 0);
   BAddRange (range_from cfg_id64 1 5); BAddRange (range_from cfg_id64 (2 ^ 60) (2 ^ 61))].
Example C86_id64_example :
  Forall (op_wf cfg_id64) C86_64_ops /\
  Forall (fun o => match o with BAddId x | BRemoveId x => 1 <= i_len x <= 32 | _ => True end) C86_64_ops /\
  (forall (o : bop) (a b : N), o ∈ C86_64_ops -> removes o -> op_interval cfg_id64 o a b -> a < 2 ^ 32) /\
  build cfg_id64 C86_64_ops = Ok ([range_from cfg_id64 1 5; range_from cfg_id64 (2 ^ 60) (2 ^ 61)], []).
Proof.
  split; [by repeat constructor|]. split; [by repeat constructor|]. split; [|reflexivity].
  intros o a b Ho Hr Hi. unfold C86_64_ops in Ho.
  apply elem_of_cons in Ho as [->|Ho]; [done|].
  apply elem_of_cons in Ho as [->|Ho]; [by destruct Hi as (_ & -> & ->)|].
  apply elem_of_cons in Ho as [->|Ho]; [done|].
  apply elem_of_cons in Ho as [->|Ho]; [done|]. by apply elem_of_nil in Ho.
Qed.
