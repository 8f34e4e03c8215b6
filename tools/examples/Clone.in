(*@ C36_clones_are_independent_partial *)
Definition CL_junk : tree N := tree_zero cfg_id32.
Definition CL_ops : list (mcmd (T := N) (O := top N)) :=
  [MCall 0 (TSet (MyId 0x10000000 8) 10) CL_junk; MCall 0 (TSet (MyId 0x14000000 6) 12) CL_junk; MClone 0;
   MCall 0 (TSet (MyId 0x1a000000 7) 13) CL_junk; MClone 1].
(** Calls on the other two trees: one deletes, one panics as its bit function is missing. *)
Definition CL_later : list (mcmd (T := N) (O := top N)) :=
  [MCall 0 (TDelete (MyId 0x10000000 8) N.eqb 10) CL_junk; MClone 1; MCall 2 (TSet (MyId 0x18000000 8) 5) CL_junk;
   MCall 0 (TSet (MyId 0xffffffff 32) 15) CL_junk].
Example C36_independent_example :
  let w1 := fst (m_run (tree_calls 0 cfg_id32) (m_start () (tree_zero cfg_id32)) CL_ops) in
  length (snd w1) = 3%nat /\ Forall (spares 1) CL_later /\
  snd (m_run (tree_calls 0 cfg_id32) w1 CL_later) =
    [MRes (Ok (RDeleted 1)); MCloned; MRes Panic; MRes (Ok (RAdded true 1))] /\
  (match contents w1 1 with Some (Ok (_, s)) => size (t_vals s) | _ => 7%nat end) = 2%nat /\
  (match contents w1 0 with Some (Ok (_, s)) => size (t_vals s) | _ => 7%nat end) = 3%nat.
Proof. vm_compute. repeat split; repeat constructor; try discriminate. Qed.
(*@ C36_clone_copies_partial *)
Example C36_copies_example :
  let w := fst (m_run (tree_calls 0 cfg_id32) (m_start () (tree_zero cfg_id32)) CL_ops) in
  exists s s', contents w 0 = Some (Ok ((), s)) /\ size (t_vals s) = 3%nat /\
    t_step 0 cfg_id32 s (TDelete (MyId 0x10000000 8) N.eqb 10) = Ok (s', RDeleted 1).
Proof. do 2 eexists. split; [vm_compute; reflexivity|]. split; vm_compute; reflexivity. Qed.
(*@ C60_clones_are_independent_partial *)
Definition CL_gjunk : tree (option (tentry N)) := tree_zero cfg_id16.
Definition CL_gops : list (mcmd (T := option (tentry N)) (O := gop N)) :=
  [MCall 0 (GClaimID (MyId 8 16) 3) CL_gjunk; MClone 0; MCall 0 (GClaimFree 4) CL_gjunk].
Definition CL_glater : list (mcmd (T := option (tentry N)) (O := gop N)) :=
  [MCall 0 (GReleaseID (MyId 8 16)) CL_gjunk; MClone 1; MCall 0 (GReleaseByLabel (N.leb 4)) CL_gjunk].
Example C60_independent_example : exists g, g_new (L := N) cfg_tree16 4 = Ok g /\
  let w1 := fst (m_run (gtree_calls (fun _ => String.EmptyString) cfg_tree16) (m_start (g_size g, g_length g) (g_tree g)) CL_gops) in
  let w2 := fst (m_run (gtree_calls (fun _ => String.EmptyString) cfg_tree16) w1 CL_glater) in
  length (snd w1) = 2%nat /\ Forall (spares 1) CL_glater /\
  (match contents w2 1 with Some (Ok (_, s)) => size (t_vals s) | _ => 7%nat end) = 1%nat /\
  (match contents w2 0 with Some (Ok (_, s)) => size (t_vals s) | _ => 7%nat end) = 0%nat.
Proof. eexists. split; [reflexivity|]. vm_compute. repeat split; repeat constructor; try discriminate. Qed.
(*@ C60_clone_copies_partial *)
Example C60_copies_example : exists g0, g_new (L := N) cfg_tree16 4 = Ok g0 /\ exists g g',
  let w := fst (m_run (gtree_calls (fun _ => String.EmptyString) cfg_tree16) (m_start (g_size g0, g_length g0) (g_tree g0)) CL_gops) in
  contents w 0 = Some (Ok ((g_size g, g_length g), g_tree g)) /\
  g_step (fun _ => String.EmptyString) cfg_tree16 g (GReleaseID (MyId 8 16)) = Ok (g', GDone).
Proof.
  eexists. split; [reflexivity|].
  match goal with |- exists g g', let w := ?W in _ =>
    let x := eval vm_compute in (contents W 0) in
    match x with Some (Ok ((?a, ?b), ?s)) => exists (GTree s a b) end end.
  eexists. split; vm_compute; reflexivity.
Qed.
(*@ C60_clone_reads_characterised *)
Definition CL_read_ops : list (gop N) := [GClaimID (MyId 8 14) 3; GClaimFree 4; GClaimID (MyId 2 16) 5].
Example C60_reads_example : exists m g, cfg_tree16 ∈ g_packages_16_32 /\ g_hist any_op cfg_tree16 4 m g /\
  t_n (g_tree g) + 1 <= 2 ^ 16 /\
  g_get_all g = Ok [Some (TEntry 2 16 5); Some (TEntry 8 14 3); Some (TEntry 12 16 4)].
Proof.
  destruct (g_new (L := N) cfg_tree16 4) as [g0| |] eqn:H0; [|discriminate H0..].
  destruct (C59_runs_return_partial_pf N (fun _ => String.EmptyString) any_op cfg_tree16 4 CL_read_ops g0)
    as (g & rs & H1 & H2); [left|done|repeat constructor; vm_compute; done|repeat constructor|by left|].
  exists (after_all cfg_tree16 ∅ CL_read_ops rs), g. split; [left|]. split; [done|].
  injection H0 as <-. clear H2. vm_compute in H1. injection H1 as <- _.
  split; [vm_compute; discriminate|vm_compute; reflexivity].
Qed.
(*@ C60_short_runs_have_few_nodes *)
From Coq Require Strings.String.
Import Coq.Strings.String.StringSyntax.
Local Open Scope string_scope.
Local Open Scope N_scope.
Example C60_few_nodes_example : 2 + 2 * N.of_nat (growth_all cfg_tree16 (CL_read_ops ++ [GClaimRange "16-31" 7; GReleaseID (MyId 8 14)])) + 1 <= 2 ^ 16.
Proof. vm_compute. discriminate. Qed.
(*@ C60_tree64_clone_reads_characterised *)
Definition CL_ops64 : list (gop N) := [GClaimID (MyId 8 62) 3; GClaimID (MyId 2 64) 5; GClaimID (MyId 99 64) 6; GReleaseByLabel (N.eqb 7)].
Example C60_tree64_reads_example : exists g rs, Forall (gop_ok cfg_tree64) CL_ops64 /\
  (exists st, one_run 4 (∅, None) CL_ops64 = Some (st, rs) /\ size (fst st) = 2%nat) /\
  (do g <- g_new cfg_tree64 4; g_run (fun _ => String.EmptyString) cfg_tree64 g CL_ops64) = Ok (g, rs) /\
  rs = [GDone; GDone; GErr EMaxId; GDone] /\ t_n (g_tree g) <= 2 ^ 64 /\
  g_get_all g = Ok [Some (TEntry 2 64 5); Some (TEntry 2 64 5)].
Proof.
  do 2 eexists. split; [repeat constructor; vm_compute; done|].
  split; [eexists; split; vm_compute; reflexivity|]. split; [vm_compute; reflexivity|]. split; [reflexivity|].
  split; [vm_compute; discriminate|vm_compute; reflexivity].
Qed.
