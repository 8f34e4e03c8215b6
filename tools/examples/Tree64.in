(*@ C73_one_value *)
(** Three prefixes are set; a Delete of the first finds the value of the third,
    and leaves two prefixes with the zero value. *)
Definition T64_ops : list (top N) :=
  [TSet (MyId 0 1) 5; TSet (MyId 3 64) 6; TSet (MyId (2 ^ 63) 1) 7; TSet (MyId 3 64) 8;
   TDelete (MyId 3 64) N.eqb 6; TDelete (MyId 0 1) N.eqb 8].
Example C73_example :
  Forall (top_ok cfg_id64) T64_ops /\ Forall set_or_delete T64_ops /\
  snd (cell_run 0 (∅, 0) T64_ops) =
    [RAdded true 1; RAdded true 1; RAdded true 1; RAdded false 1; RDeleted 0; RDeleted 1] /\
  (do a <- t_run 0 cfg_id64 (tree_zero cfg_id64) T64_ops; iter_all 0 (fst a)) = Ok [[0]; [0]].
Proof.
  split; [by repeat (apply Forall_cons; split; [by vm_compute|])|].
  split; [by repeat (apply Forall_cons; split; [done|])|].
  split; vm_compute; reflexivity.
Qed.
(*@ C74_tree64_exact *)
Definition T64_calls : list (gop N) :=
  [GClaimID (MyId 0 1) 5; GClaimRange "4-6" 6; GUpdate (MyId 9 64) 7; GReleaseID (MyId 0 1); GReleaseID (MyId 9 64)].
Example C74_example :
  Forall (gop_ok cfg_tree64) T64_calls /\
  (do g <- g_new cfg_tree64 64; do a <- g_run dec cfg_tree64 g T64_calls; Ok (snd a, g_get_all (fst a), g_get (fst a) (MyId 0 1))) =
    Ok ([GDone; GDone; GDone; GDone; GDone], Ok [None; None; None], Panic) /\
  (exists st, one_run 64 (∅, None) T64_calls = Some (st, [GDone; GDone; GDone; GDone; GDone]) /\
     snd st = None /\ size (fst st) = 3%nat) /\
  one_run 64 (∅, None) (T64_calls ++ [GReleaseID (MyId 0 1)]) = None.
Proof.
  split; [by repeat (apply Forall_cons; split; [by vm_compute|])|].
  split; [by vm_compute|]. split; [|by vm_compute].
  destruct (one_run 64 (∅, None) T64_calls) as [[st rs]|] eqn:E; [|by vm_compute in E].
  exists st. assert (H : match one_run 64 (∅, None) T64_calls with
    | Some (st, rs) => (rs, snd st, size (fst st)) = ([GDone; GDone; GDone; GDone; GDone], None, 3%nat)
    | None => False end) by (by vm_compute). rewrite E in H. clear E. injection H as -> -> ->. done.
Qed.
(*@ C47_claim_free_always_panics_refuted *)
Example C47_always_example : Forall (gop_ok cfg_tree64) [GClaimID (MyId 0 1) 5; GClaimID (MyId 7 64) 6; GReleaseID (MyId 7 64)] /\
  (do g <- g_new cfg_tree64 64; g_run dec cfg_tree64 g [GClaimID (MyId 0 1) 5; GClaimID (MyId 7 64) 6; GClaimFree 7]) = Panic.
Proof. split; [by repeat (apply Forall_cons; split; [by vm_compute|])|by vm_compute]. Qed.
(*@ C48_earlier_claim_lost_refuted *)
Example C48_lost_example : gid_ok cfg_tree64 (MyId 7 64) /\ gid_ok cfg_tree64 (MyId 8 61) /\
  prefix 64 (MyId 7 64) <> prefix 64 (MyId 8 61).
Proof. split; [by vm_compute|]. split; [by vm_compute|]. by vm_compute. Qed.
(*@ C48_release_breaks_others_refuted *)
Example C48_breaks_example :
  (do g <- g_new cfg_tree64 64; do a <- g_run dec cfg_tree64 g [GClaimID (MyId 7 64) 1; GClaimID (MyId 8 61) 2; GReleaseID (MyId 8 61)];
   Ok (g_get (fst a) (MyId 7 64))) = Ok Panic.
Proof. vm_compute. reflexivity. Qed.

(*@ C40_tree64_refuted *)
Example C40_tree64_example :
  prefix 64 (MyId 7 64) <> prefix 64 (MyId 8 61) /\
  (do g <- g_new cfg_tree64 64; do a <- g_run dec cfg_tree64 g [GClaimID (MyId 7 64) 1; GClaimID (MyId 8 61) 2; GReleaseID (MyId 7 64)];
   Ok (snd a, g_Size (fst a), g_get_all (fst a))) = Ok ([GDone; GDone; GDone], Ok 2, Ok [Some (TEntry 8 61 2); Some (TEntry 8 61 2)]).
Proof. split; by vm_compute. Qed.
(*@ C41_tree64_refuted *)
Example C41_tree64_example :
  (do g <- g_new cfg_tree64 64; do a <- g_run dec cfg_tree64 g [GClaimID (MyId 7 64) 1; GClaimID (MyId 8 61) 2; GReleaseByLabel (N.eqb 2)];
   Ok (snd a, g_get_all (fst a), g_get (fst a) (MyId 7 64))) = Ok ([GDone; GDone; GDone], Ok [None], Panic).
Proof. vm_compute. reflexivity. Qed.
(*@ C42_tree64_refuted *)
Example C42_tree64_example :
  (do g <- g_new cfg_tree64 64; do a <- g_run dec cfg_tree64 g [GClaimID (MyId 7 64) 1; GClaimID (MyId 8 61) 2];
   Ok (g_get_by_label (fst a) (N.eqb 1), g_get_by_label (fst a) (N.eqb 2))) = Ok (Ok [], Ok [Some (TEntry 8 61 2); Some (TEntry 8 61 2)]).
Proof. vm_compute. reflexivity. Qed.
(*@ C43_tree64_refuted *)
Example C43_tree64_example :
  (do g <- g_new cfg_tree64 64; do a <- g_run dec cfg_tree64 g [GClaimID (MyId 7 64) 1; GClaimID (MyId 8 61) 2];
   Ok (g_children cfg_tree64 (fst a) (MyId 0 0), g_children cfg_tree64 (fst a) (MyId 7 63))) =
  Ok (Ok [Some (TEntry 8 61 2); Some (TEntry 8 61 2)], Ok []).
Proof. vm_compute. reflexivity. Qed.
(*@ C37_tree64_last_claim_partial *)
Example C37_tree64_example :
  Forall (gop_ok cfg_tree64) [GClaimID (MyId 7 64) 1; GClaimID (MyId 8 61) 2; GReleaseID (MyId 8 61)] /\
  (do g <- g_new cfg_tree64 64; do a <- g_run dec cfg_tree64 g ([GClaimID (MyId 7 64) 1; GClaimID (MyId 8 61) 2; GReleaseID (MyId 8 61)] ++ [GUpdate (MyId 5 64) 3]);
   Ok (g_get (fst a) (MyId 5 64))) = Ok (Ok (TEntry 5 64 3)).
Proof. split; [by repeat (apply Forall_cons; split; [by vm_compute|])|by vm_compute]. Qed.
(*@ C49_tree64_only_last_prefix_refuted *)
Example C49_tree64_example :
  parse_range cfg_id64 "4-6" = Ok (range_from cfg_id64 4 6) /\ ~ id64_bad_range 4 6 /\
  range_ids cfg_id64 (range_from cfg_id64 4 6) = Ok [MyId 4 63; MyId 6 64] /\
  (do g <- g_new cfg_tree64 64; do a <- g_run dec cfg_tree64 g ([GClaimID (MyId 9 64) 1] ++ [GClaimRange "4-6" 6]);
   Ok (snd a, g_get (fst a) (MyId 4 63), g_get (fst a) (MyId 6 64))) =
    Ok ([GDone; GDone], Err ENotFound, Ok (TEntry 6 64 6)).
Proof.
  split; [by vm_compute|]. split; [unfold id64_bad_range; vm_compute; intuition congruence|]. split; by vm_compute.
Qed.
(*@ C77_tree64_reversed_claim_range_refuted *)
Example C77_tree64_example :
  parse_range cfg_id64 "6-4" = Ok (range_from cfg_id64 6 4) /\
  (do g <- g_new cfg_tree64 64; do a <- g_run dec cfg_tree64 g ([GClaimID (MyId 9 64) 1] ++ [GClaimRange "6-4" 6]);
   Ok (snd a, g_get (fst a) (MyId 4 64))) = Ok ([GDone; GDone], Ok (TEntry 4 64 6)).
Proof. split; by vm_compute. Qed.

(*@ C33_id64_values *)
Example C33_id64_example : exists s rs,
  t_run 0 cfg_id64 (tree_zero cfg_id64) (take 4 T64_ops) = Ok (s, rs) /\
  (do a <- iter_loop 0 (S (N.to_nat (t_n s))) s iterate; Ok (fst a)) = Ok [[8]; [8]; [8]] /\
  (size (fst (fst (cell_run 0 (∅, 0) (take 4 T64_ops)))), snd (fst (cell_run 0 (∅, 0) (take 4 T64_ops)))) = (3%nat, 8).
Proof. do 2 eexists. split; [vm_compute; reflexivity|]. split; vm_compute; reflexivity. Qed.
