(*@ C37_get_partial *)
Definition G_start (c : gcfg) (n : N) : gtree N := GTree (tree_zero (gc_id c)) (usub (gw c) (ushl (gw c) 1 n) 1) n.
Definition G_ops : list (gop N) :=
  [GClaimID (MyId 3 16) 1; GClaimID (MyId 8 14) 2; GUpdate (MyId 3 16) 5; GClaimFree 3; GClaimID (MyId 8 15) 4;
   GClaimID (MyId 12 16) 5; GReleaseID (MyId 12 16); GClaimID (MyId 16 16) 7].
Definition G_ops32 : list (gop N) :=
  [GClaimID (MyId 3 32) 1; GClaimID (MyId 256 24) 2; GClaimFree 3; GUpdate (MyId 256 24) 4; GReleaseByLabel (N.eqb 1)].
Lemma G_hist16 : exists g rs, g_run dec cfg_tree16 (G_start cfg_tree16 4) G_ops = Ok (g, rs) /\
  g_hist no_range cfg_tree16 4 (after_all cfg_tree16 ∅ G_ops rs) g.
Proof.
  apply (C59_runs_return_partial_pf N); [left|vm_compute; reflexivity| | |by left];
    repeat constructor; vm_compute; done.
Qed.
Lemma G_hist32 : exists g rs, g_run dec cfg_tree32 (G_start cfg_tree32 16) G_ops32 = Ok (g, rs) /\
  g_hist any_op cfg_tree32 16 (after_all cfg_tree32 ∅ G_ops32 rs) g.
Proof.
  apply (C59_runs_return_partial_pf N); [right; left|vm_compute; reflexivity| | |right; vm_compute; discriminate];
    repeat constructor; vm_compute; done.
Qed.
Example C37_example : exists g rs, g_run dec cfg_tree16 (G_start cfg_tree16 4) G_ops = Ok (g, rs) /\
  g_hist no_range cfg_tree16 4 (after_all cfg_tree16 ∅ G_ops rs) g /\
  rs = [GDone; GDone; GDone; GEntry (TEntry 2 16 3); GDone; GDone; GDone; GErr EMaxId] /\
  g_get g (MyId 3 16) = Ok (TEntry 3 16 5) /\ g_get g (MyId 12 16) = Err ENotFound.
Proof.
  destruct G_hist16 as (g & rs & Hr & Hh). exists g, rs. split; [done|]. split; [done|]. clear Hh.
  assert (H : (do a <- g_run dec cfg_tree16 (G_start cfg_tree16 4) G_ops;
    Ok (snd a, g_get (fst a) (MyId 3 16), g_get (fst a) (MyId 12 16))) =
    Ok ([GDone; GDone; GDone; GEntry (TEntry 2 16 3); GDone; GDone; GDone; GErr EMaxId], Ok (TEntry 3 16 5), Err ENotFound))
    by (vm_compute; reflexivity).
  rewrite Hr in H. cbn [rbind fst snd] in H. clear Hr. injection H as -> -> ->. repeat split; reflexivity.
Qed.
Example C37_example32 : exists g rs, g_run dec cfg_tree32 (G_start cfg_tree32 16) G_ops32 = Ok (g, rs) /\
  g_hist any_op cfg_tree32 16 (after_all cfg_tree32 ∅ G_ops32 rs) g /\
  rs = [GDone; GDone; GEntry (TEntry 2 32 3); GDone; GDone] /\
  g_get g (MyId 3 32) = Err ENotFound /\ g_get g (MyId 256 24) = Ok (TEntry 256 24 4).
Proof.
  destruct G_hist32 as (g & rs & Hr & Hh). exists g, rs. split; [done|]. split; [done|]. clear Hh.
  assert (H : (do a <- g_run dec cfg_tree32 (G_start cfg_tree32 16) G_ops32;
    Ok (snd a, g_get (fst a) (MyId 3 32), g_get (fst a) (MyId 256 24))) =
    Ok ([GDone; GDone; GEntry (TEntry 2 32 3); GDone; GDone], Err ENotFound, Ok (TEntry 256 24 4)))
    by (vm_compute; reflexivity).
  rewrite Hr in H. cbn [rbind fst snd] in H. clear Hr. injection H as -> -> ->. repeat split; reflexivity.
Qed.
(*@ C37_other_prefixes_partial *)
Example C37_other_example : ~ touches cfg_tree16 (∅ : record N) (GClaimID (MyId 8 14) 2) GDone (prefix 16 (MyId 8 15)).
Proof. vm_compute. discriminate. Qed.
(*@ C38_claim_of_claimed_refuted *)
Example C38_example : (do a <- g_run dec cfg_tree16 (G_start cfg_tree16 4) G_ops; do b <- g_step dec cfg_tree16 (fst a) (GClaimID (MyId 8 14) 11);
   Ok (g_get (fst a) (MyId 8 14), snd b, g_get (fst b) (MyId 8 14))) = Ok (Ok (TEntry 8 14 2), GDone, Ok (TEntry 8 14 11)).
Proof. vm_compute. reflexivity. Qed.
(*@ C40_release_partial *)
Example C40_example : (do a <- g_run dec cfg_tree16 (G_start cfg_tree16 4) G_ops; do b <- g_step dec cfg_tree16 (fst a) (GReleaseID (MyId 8 14));
   Ok (snd b, g_get (fst b) (MyId 8 14), g_get (fst b) (MyId 8 15))) = Ok (GDone, Err ENotFound, Ok (TEntry 8 15 4)).
Proof. vm_compute. reflexivity. Qed.
(*@ C42_listings_partial *)
Example C42_example : (do a <- g_run dec cfg_tree16 (G_start cfg_tree16 4) G_ops;
   Ok (g_get_all (fst a), g_Size (fst a), g_get_by_label (fst a) (N.eqb 2))) =
  Ok (Ok [Some (TEntry 2 16 3); Some (TEntry 3 16 5); Some (TEntry 8 14 2); Some (TEntry 8 15 4)], Ok 4,
      Ok [Some (TEntry 8 14 2)]).
Proof. vm_compute. reflexivity. Qed.
(*@ C43_children_partial *)
Example C43_example : (do a <- g_run dec cfg_tree16 (G_start cfg_tree16 4) G_ops;
   Ok (g_children cfg_tree16 (fst a) (MyId 8 14), g_children cfg_tree16 (fst a) (MyId 2 15))) =
  Ok (Ok [Some (TEntry 8 15 4)], Ok [Some (TEntry 2 16 3); Some (TEntry 3 16 5)]).
Proof. vm_compute. reflexivity. Qed.
(*@ C44_parents_partial *)
Example C44_example : (do a <- g_run dec cfg_tree16 (G_start cfg_tree16 4) G_ops;
   Ok (g_parents cfg_tree16 (fst a) (MyId 9 16))) = Ok (Ok [Some (TEntry 8 14 2); Some (TEntry 8 15 4)]).
Proof. vm_compute. reflexivity. Qed.
(*@ C45_claim_free_partial *)
(** A tree16 of length 2: three ids, then the fourth, then none. *)
Example C45_example : (do a <- g_run dec cfg_tree16 (G_start cfg_tree16 2)
    [GClaimID (MyId 2 15) 1; GClaimFree 2; GClaimFree 3; GClaimFree 4]; Ok (snd a)) =
  Ok [GDone; GEntry (TEntry 0 16 2); GEntry (TEntry 1 16 3); GErr ENoFreeId] /\
  ~ (forall v, v < 2 ^ 2 -> covers 16 (MyId 2 15) v).
Proof.
  split; [vm_compute; reflexivity|].
  intros H. specialize (H 0 ltac:(vm_compute; done)). vm_compute in H. discriminate.
Qed.
(*@ C45_claim_free_exact *)
(** An entry that covers the whole tree is not among those that count. *)
Example C45_exact_example : (do a <- g_run dec cfg_tree16 (G_start cfg_tree16 2)
    [GClaimID (MyId 0 14) 1; GClaimID (MyId 0 15) 2; GClaimFree 3; GClaimFree 4; GClaimFree 5]; Ok (snd a)) =
  Ok [GDone; GDone; GEntry (TEntry 2 16 3); GEntry (TEntry 3 16 4); GErr ENoFreeId].
Proof. vm_compute. reflexivity. Qed.
(*@ C46_longer_trees_exact *)
Example C46_longer_example : (do a <- g_run dec cfg_tree32 (G_start cfg_tree32 30)
    [GClaimID (MyId 0 31) 1; GClaimFree 2; GClaimFree 3; GClaimFree 4]; Ok (snd a)) =
  Ok [GDone; GEntry (TEntry 2 32 2); GEntry (TEntry 3 32 3); GErr ENoFreeId].
Proof. vm_compute. reflexivity. Qed.
(*@ C46_shorter_trees_partial *)
(** A tree32 of length 2: the ids are handed out, then the error is that of an
    id above the size. *)
Example C46_shorter_example : (do a <- g_run dec cfg_tree32 (G_start cfg_tree32 2)
    [GClaimID (MyId 2 31) 1; GClaimFree 2; GClaimFree 3; GClaimFree 4]; Ok (snd a)) =
  Ok [GDone; GEntry (TEntry 0 32 2); GEntry (TEntry 1 32 3); GErr EMaxId].
Proof. vm_compute. reflexivity. Qed.
(*@ C49_claim_range_partial *)
Example C49_example :
  (do a <- g_run dec cfg_tree16 (G_start cfg_tree16 4) [GClaimRange "3-9" 7]; g_get_all (fst a)) =
    Ok [Some (TEntry 3 16 7); Some (TEntry 4 14 7); Some (TEntry 8 15 7)] /\
  parse_range (gc_id cfg_tree16) "3-9" = Ok (range_from (gc_id cfg_tree16) 3 9).
Proof. split; [vm_compute; reflexivity|]. vm_compute. reflexivity. Qed.
(*@ C59_calls_return_partial *)
Example C59_example : exists (m : record N) g, g_hist no_range cfg_tree16 4 m g /\ chosen cfg_tree16 4 m 0.
Proof.
  destruct G_hist16 as (g & rs & Hr & Hh). eexists _, g. split; [exact Hh|].
  assert (Ha : g_hist any_op cfg_tree16 4 (after_all cfg_tree16 ∅ G_ops rs) g).
  { clear Hr. induction Hh; [by apply hist_new|by eapply hist_step]. }
  destruct (C59_calls_return_partial_pf N dec cfg_tree16 4 _ g (GClaimFree 9) ltac:(left) Ha I ltac:(by left))
    as (g' & r & Hs & Hret & _).
  revert Hret. generalize (after_all cfg_tree16 ∅ G_ops rs). intros m Hret. clear Hh Ha.
  assert (H : (do a <- g_run dec cfg_tree16 (G_start cfg_tree16 4) G_ops;
    do b <- g_step dec cfg_tree16 (fst a) (GClaimFree 9); Ok (snd b)) = Ok (GEntry (TEntry 0 16 9))) by (vm_compute; reflexivity).
  rewrite Hr in H. cbn [rbind fst snd] in H. rewrite Hs in H. cbn [rbind fst snd] in H. clear Hr Hs. injection H as ->.
  destruct Hret as [(v & Hv & Hr)|[_ Hr]]; [|discriminate].
  destruct (2 ^ 4 <=? v); [discriminate|]. injection Hr as <-. exact Hv.
Qed.
(*@ C60_clone_size_partial *)
Example C60_example :
  (do a <- g_run dec cfg_tree32 (G_start cfg_tree32 16) G_ops32; g_Size (g_clone (fst a))) = Ok 2.
Proof. vm_compute. reflexivity. Qed.

(*@ C77_reversed_claim_range_characterised *)
Example C77_example : parse_range (gc_id cfg_tree16) "20-9" = Ok (range_from (gc_id cfg_tree16) 20 9) /\
  half_size 20 9 = 16 /\
  (do a <- g_run dec cfg_tree16 (G_start cfg_tree16 8) [GClaimRange "20-9" 7]; Ok (snd a, g_get_all (fst a))) =
    Ok ([GDone], Ok [Some (TEntry 0 13 7); Some (TEntry 8 15 7); Some (TEntry 20 14 7); Some (TEntry 24 13 7)]).
Proof. split; [vm_compute; reflexivity|]. split; vm_compute; reflexivity. Qed.
(*@ C77_reversed_claim_range_refuted *)
Example C77_example32 : parse_range (gc_id cfg_tree32) "1-0" = Ok (range_from (gc_id cfg_tree32) 1 0) /\
  (do a <- g_run dec cfg_tree32 (G_start cfg_tree32 8) [GClaimRange "1-0" 7]; Ok (snd a, g_get_all (fst a))) =
    Ok ([GDone], Ok [Some (TEntry 0 32 7); Some (TEntry 1 32 7)]).
Proof. split; vm_compute; reflexivity. Qed.
(*@ C79_tree16_in_order *)
Example C79_example16 : exists g,
  (do g <- g_new (L := N) cfg_tree16 2; g_run dec cfg_tree16 g (map GClaimFree [7; 8; 7; 9; 5; 6])) =
    Ok (g, [GEntry (TEntry 0 16 7); GEntry (TEntry 1 16 8); GEntry (TEntry 2 16 7); GEntry (TEntry 3 16 9);
            GErr ENoFreeId; GErr ENoFreeId]).
Proof. eexists. vm_compute. reflexivity. Qed.
(*@ C79_tree32_in_order *)
Example C79_example32 :
  (exists g, (do g <- g_new (L := N) cfg_tree32 30; g_run dec cfg_tree32 g (map GClaimFree [7; 8; 7; 9; 5])) =
    Ok (g, [GEntry (TEntry 0 32 7); GEntry (TEntry 1 32 8); GEntry (TEntry 2 32 7); GEntry (TEntry 3 32 9);
            GErr ENoFreeId])) /\
  (exists g, (do g <- g_new (L := N) cfg_tree32 1; g_run dec cfg_tree32 g (map GClaimFree [7; 8; 7])) =
    Ok (g, [GEntry (TEntry 0 32 7); GEntry (TEntry 1 32 8); GErr EMaxId])).
Proof. split; eexists; vm_compute; reflexivity. Qed.
(*@ C37_claim_then_get_partial *)
Example C37_claim_example : gid_ok cfg_tree16 (MyId 8 13) /\
  (do a <- g_run dec cfg_tree16 (G_start cfg_tree16 4) G_ops; do b <- g_step dec cfg_tree16 (fst a) (GClaimID (MyId 8 13) 9);
   do d <- g_step dec cfg_tree16 (fst b) (GUpdate (MyId 8 14) 6);
   Ok (snd b, g_get (fst b) (MyId 8 13), snd d, g_get (fst d) (MyId 8 14), g_get (fst d) (MyId 8 13))) =
  Ok (GDone, Ok (TEntry 8 13 9), GDone, Ok (TEntry 8 14 6), Ok (TEntry 8 13 9)).
Proof. split; [by vm_compute|vm_compute; reflexivity]. Qed.
(*@ C39_ids_stay_inside_partial *)
Example C39_example : exists g rs es, g_run dec cfg_tree16 (G_start cfg_tree16 4) G_ops = Ok (g, rs) /\
  g_hist no_range cfg_tree16 4 (after_all cfg_tree16 ∅ G_ops rs) g /\
  g_get_all g = Ok (Some <$> es) /\ map te_id es = [2; 3; 8; 8].
Proof.
  destruct G_hist16 as (g & rs & Hr & Hh). exists g, rs, [TEntry 2 16 3; TEntry 3 16 5; TEntry 8 14 2; TEntry 8 15 4].
  split; [done|]. split; [done|]. split; [|reflexivity]. clear Hh.
  assert (H : (do a <- g_run dec cfg_tree16 (G_start cfg_tree16 4) G_ops; g_get_all (fst a)) =
    Ok (Some <$> [TEntry 2 16 3; TEntry 3 16 5; TEntry 8 14 2; TEntry 8 15 4])) by (vm_compute; reflexivity).
  by rewrite Hr in H.
Qed.
(*@ C39_claims_above_refused_partial *)
Example C39_above_example : gid_ok cfg_tree16 (MyId 16 16) /\ 2 ^ 4 <= i_id (MyId 16 16) /\
  (do a <- g_run dec cfg_tree16 (G_start cfg_tree16 4) G_ops; do b <- g_step dec cfg_tree16 (fst a) (GClaimID (MyId 16 16) 9);
   do d <- g_step dec cfg_tree16 (fst b) (GUpdate (MyId 16 12) 9); do f <- g_step dec cfg_tree16 (fst d) (GClaimID (MyId 15 16) 9);
   Ok [snd b; snd d; snd f]) = Ok [GErr EMaxId; GErr EMaxId; GDone].
Proof. split; [by vm_compute|]. split; [by vm_compute|vm_compute; reflexivity]. Qed.
(*@ C41_release_by_label_partial *)
Example C41_example : (do a <- g_run dec cfg_tree16 (G_start cfg_tree16 4) G_ops; do b <- g_step dec cfg_tree16 (fst a) (GReleaseByLabel (N.leb 4));
   Ok (snd b, g_get_all (fst b), g_get_by_label (fst b) (N.leb 4))) =
  Ok (GDone, Ok [Some (TEntry 2 16 3); Some (TEntry 8 14 2)], Ok []).
Proof. vm_compute. reflexivity. Qed.
(*@ C44_parents_characterised *)
(** The parents of a shorter id are entries below it, and entries of full length
    are never among them. *)
Example C44_characterised_example : (do a <- g_run dec cfg_tree16 (G_start cfg_tree16 4) G_ops;
   Ok (g_parents cfg_tree16 (fst a) (MyId 8 13), g_parents cfg_tree16 (fst a) (MyId 0 12), g_parents cfg_tree16 (fst a) (MyId 3 16))) =
  Ok (Ok [Some (TEntry 8 14 2); Some (TEntry 8 15 4)], Ok [Some (TEntry 8 14 2); Some (TEntry 8 15 4)], Ok []).
Proof. vm_compute. reflexivity. Qed.
(*@ C45_length_0_refuted *)
Example C45_length_0_example : (do a <- g_run dec cfg_tree16 (G_start cfg_tree16 0) [GClaimFree 1; GClaimFree 2; GClaimFree 3];
   Ok (snd a, g_get_all (fst a))) =
  Ok ([GEntry (TEntry 0 16 1); GEntry (TEntry 0 16 2); GEntry (TEntry 0 16 3)], Ok [Some (TEntry 0 16 3)]).
Proof. vm_compute. reflexivity. Qed.
(*@ C46_claim_free_length_16_partial *)
Example C46_length_16_example : exists g rs, g_run dec cfg_tree32 (G_start cfg_tree32 16) G_ops32 = Ok (g, rs) /\
  g_hist any_op cfg_tree32 16 (after_all cfg_tree32 ∅ G_ops32 rs) g /\
  (do b <- g_step dec cfg_tree32 g (GClaimFree 8); Ok (snd b)) = Ok (GEntry (TEntry 3 32 8)) /\
  ~ (forall v, v < 2 ^ 16 -> covers 32 (MyId 256 24) v).
Proof.
  destruct G_hist32 as (g & rs & Hr & Hh). exists g, rs. split; [done|]. split; [done|]. clear Hh. split.
  - assert (H : (do a <- g_run dec cfg_tree32 (G_start cfg_tree32 16) G_ops32; do b <- g_step dec cfg_tree32 (fst a) (GClaimFree 8); Ok (snd b)) =
      Ok (GEntry (TEntry 3 32 8))) by (vm_compute; reflexivity). by rewrite Hr in H.
  - intros H. specialize (H 0 ltac:(vm_compute; done)). vm_compute in H. discriminate.
Qed.
(*@ C46_only_low_ids *)
Example C46_low_example : (do a <- g_run dec cfg_tree32 (G_start cfg_tree32 16) G_ops32; do b <- g_step dec cfg_tree32 (fst a) (GClaimFree 8); Ok (snd b)) =
  Ok (GEntry (TEntry 3 32 8)) /\ 16 < te_len (TEntry 2 32 3) /\ ~ covers 32 (eid (TEntry 2 32 3)) 3.
Proof. split; [vm_compute; reflexivity|]. split; [by vm_compute|]. vm_compute. discriminate. Qed.
(*@ C46_longer_trees_refuted *)
Example C46_longer_refuted_example :
  (do g <- g_new (L := N) cfg_tree32 24; do a <- g_run dec cfg_tree32 g [GClaimID (MyId 0 25) 1; GClaimID (MyId 128 25) 2; GClaimFree 3; GClaimID (MyId 256 32) 4]; Ok (snd a)) =
    Ok [GDone; GDone; GErr ENoFreeId; GDone].
Proof. vm_compute. reflexivity. Qed.
(*@ C47_claim_free_refuted *)
Example C47_example : (do g <- g_new (L := N) cfg_tree64 64; g_step dec cfg_tree64 g (GClaimFree 1)) = Panic /\
  (do g <- g_new (L := N) cfg_tree64 64; do a <- g_step dec cfg_tree64 g (GClaimID (MyId 5 64) 1); g_step dec cfg_tree64 (fst a) (GClaimFree 1)) = Panic.
Proof. split; vm_compute; reflexivity. Qed.
(*@ C47_claim_free_panics_refuted *)
Example C47_panics_example : (do g <- g_new (L := N) cfg_tree64 16; Ok (g_length g, g_step dec cfg_tree64 g (GClaimFree 1))) = Ok (16, Panic).
Proof. vm_compute. reflexivity. Qed.
(*@ C49_malformed_partial *)
Example C49_malformed_example : (forall r, parse_range (gc_id cfg_tree16) "3-70000" <> Ok r) /\ (forall r, parse_range (gc_id cfg_tree16) "37" <> Ok r) /\
  (do a <- g_run dec cfg_tree16 (G_start cfg_tree16 4) [GClaimRange "37" 1; GClaimRange "3-70000" 1]; g_get_all (fst a)) = Ok [].
Proof.
  split; [intros r H; vm_compute in H; discriminate|]. split; [intros r H; vm_compute in H; discriminate|].
  vm_compute. reflexivity.
Qed.
(*@ C59_runs_return_partial *)
Example C59_runs_example : g_new cfg_tree32 16 = Ok (G_start cfg_tree32 16) /\ Forall (gop_ok cfg_tree32) G_ops32 /\
  N.of_nat (growth_all cfg_tree32 G_ops32) + 2 <= 2 ^ 31.
Proof. split; [vm_compute; reflexivity|]. split; [repeat constructor; vm_compute; done|]. vm_compute. discriminate. Qed.
