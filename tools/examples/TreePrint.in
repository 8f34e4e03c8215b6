(*@ C88_printed_values_partial *)
Definition V_ops : list (top N) :=
  [TSet (MyId 0x1000 8) 10; TAdd (MyId 0x1000 8) 11 None; TSet (MyId 0x1400 6) 12; TSet (MyId 0x1a00 7) 13;
   TSet (MyId 0x1a00 7) 16; TSet (MyId 0 0) 14; TDelete (MyId 0x1a00 7) N.eqb 16; TDelete (MyId 0x1000 8) N.eqb 10].
(** Values were overwritten, put back and deleted on the way; nodes were split and merged. *)
Example C88_example : Forall (top_ok cfg_id16) V_ops /\ roomy 16 (∅ : pmap N) V_ops /\
  exists s rs, t_run 0 cfg_id16 (tree_zero cfg_id16) V_ops = Ok (s, rs) /\
    (print_values s).*2 ≡ₚ [14; 11; 12] /\
    concat (map_to_list (fst (spec_run 16 (∅ : pmap N) V_ops))).*2 ≡ₚ [14; 11; 12].
Proof.
  split; [repeat constructor; vm_compute; done|].
  split; [apply (C31_short_runs_are_roomy_pf N cfg_id16); [left|vm_compute; discriminate]|].
  do 2 eexists. split; [vm_compute; reflexivity|].
  split; (apply (bool_decide_unpack _); vm_compute; exact I).
Qed.
(*@ C88_nothing_left_partial *)
Definition V_all_ops : list (top N) := V_ops ++
  [TDelete (MyId 0 0) N.eqb 14; TDelete (MyId 0x1000 8) N.eqb 11; TDelete (MyId 0x1400 6) N.eqb 12].
Example C88_nothing_example : Forall (top_ok cfg_id16) V_all_ops /\ roomy 16 (∅ : pmap N) V_all_ops /\
  fst (spec_run 16 (∅ : pmap N) V_all_ops) = ∅ /\
  exists s rs, t_run 0 cfg_id16 (tree_zero cfg_id16) V_all_ops = Ok (s, rs) /\ print_values s = [].
Proof.
  split; [repeat constructor; vm_compute; done|].
  split; [apply (C31_short_runs_are_roomy_pf N cfg_id16); [left|vm_compute; discriminate]|].
  split; [unfold pmap; apply (bool_decide_unpack _); vm_compute; exact I|].
  do 2 eexists. split; vm_compute; reflexivity.
Qed.
(*@ C88_printed_nodes *)
Example C88_nodes_example : exists s rs, t_run 0 cfg_id16 (tree_zero cfg_id16) V_ops = Ok (s, rs) /\
  (print_nodes s).*1 = [0; 1; 2; 3; 4; 5; 6] /\
  Forall (fun k => exists n, (do a <- t_run 0 cfg_id16 (tree_zero cfg_id16) (take k V_ops); do vss <- iter_all 0 (fst a); Ok (length vss)) = Ok n /\ (n <= 4)%nat)
    (seq 0 (S (length V_ops))).
Proof.
  do 2 eexists. split; [vm_compute; reflexivity|]. split; [vm_compute; reflexivity|].
  cbn [V_ops length seq]. repeat constructor; (eexists; split; [vm_compute; reflexivity|lia]).
Qed.
Example C88_nodes_example_64 :
  (do a <- t_run 0 cfg_id64 (tree_zero cfg_id64) [TSet (MyId (2 ^ 60) 8) 10; TSet (MyId (2 ^ 61) 8) 11]; Ok (print_nodes (fst a)).*1) =
  Ok [0; 1; 2; 3; 4].
Proof. vm_compute. reflexivity. Qed.
(*@ C88_keys_of_nodes_partial *)
Example C88_keys_example : exists s rs, t_run 0 cfg_id16 (tree_zero cfg_id16) V_ops = Ok (s, rs) /\
  (fun l : N * option node => (fst l, n_cnt <$> snd l)) <$> print_nodes s =
    [(0, Some 0); (1, Some 1); (2, Some 1); (3, Some 0); (4, Some 1); (5, Some 0); (6, Some 0)] /\
  (print_values s).*1 ≡ₚ [1 * 2 ^ 16; 2 * 2 ^ 16; 4 * 2 ^ 16].
Proof. do 2 eexists. split; [vm_compute; reflexivity|]. split; [vm_compute; reflexivity|]. apply (bool_decide_unpack _); vm_compute; exact I. Qed.
(*@ C88_entries_printed_partial *)
Definition V_gops : list (gop N) :=
  [GClaimID (MyId 3 16) 1; GClaimID (MyId 8 14) 2; GUpdate (MyId 3 16) 5; GClaimFree 3; GReleaseID (MyId 8 14)].
Example C88_entries_example : exists g rs,
  g_run dec cfg_tree16 (GTree (tree_zero cfg_id16) 15 4) V_gops = Ok (g, rs) /\
  g_hist no_range cfg_tree16 4 (after_all cfg_tree16 ∅ V_gops rs) g.
Proof.
  apply (C59_runs_return_partial_pf N); [left|vm_compute; reflexivity| | |by left];
    repeat constructor; vm_compute; done.
Qed.
Example C88_entries_values :
  (do a <- g_run dec cfg_tree16 (GTree (tree_zero cfg_id16) 15 4) V_gops; do es <- g_get_all (fst a); Ok (es, length (g_print_values (fst a)))) =
  Ok ([Some (TEntry 2 16 3); Some (TEntry 3 16 5)], 2%nat).
Proof. vm_compute. reflexivity. Qed.
