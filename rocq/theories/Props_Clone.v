(** Generated by tools/genprops.py from CloneFinal.v; only statements,
    each closed by the lemma of the same name with suffix _pf. *)
From Verif Require Import GTreeFinal CloneFinal CloneSpec TreeSpec GTreeSpec Tree64Spec.

(** Independence of clones: whatever trees have been cloned from a new tree and
    from its clones, and whatever was called on them, further calls on other trees,
    and further Clones of any tree, do not change a tree at all. *)
Theorem C36_clones_are_independent_partial : forall (T : Type) (zero : T) (c : idcfg) (ks1 ks2 : list mcmd) (j : nat),
  let w1 := fst (m_run (tree_calls zero c) (m_start () (tree_zero c)) ks1) in
  let w2 := fst (m_run (tree_calls zero c) w1 ks2) in
  (j < length (snd w1))%nat -> Forall (spares j) ks2 ->
  contents w2 j = contents w1 j /\ (exists s, contents w1 j = Some (Ok ((), s))) /\
  Forall (fun r => r <> MWild) (snd (m_run (tree_calls zero c) w1 ks2)).
Proof. exact C36_clones_are_independent_partial_pf. Qed.
Print Assumptions C36_clones_are_independent_partial.

Definition CL_junk : tree N := tree_zero cfg_id32.
Definition CL_ops : list (mcmd (T := N) (O := top N)) :=
  [MCall 0 (TSet (MyId 0x10000000 8) 10) CL_junk; MCall 0 (TSet (MyId 0x14000000 6) 12) CL_junk; MClone 0;
   MCall 0 (TSet (MyId 0x1a000000 7) 13) CL_junk; MClone 1].
(** Calls on the other two trees: one deletes, one panics as its bit function is missing. *)
Definition CL_later : list (mcmd (T := N) (O := top N)) :=
  [MCall 0 (TDelete (MyId 0x10000000 8) N.eqb 10) CL_junk; MClone 1; MCall 2 (TSet (MyId 0x18000000 8) 5) CL_junk;
   MCall 0 (TSet (MyId 0xffffffff 32) 15) CL_junk].
Example C36_independent_example :
  let w1 := fst (m_run (tree_calls 0 cfg_id32) (m_start () (tree_zero cfg_id32)) CL_ops) in
  length (snd w1) = 3%nat /\ Forall (spares 1) CL_later /\
  snd (m_run (tree_calls 0 cfg_id32) w1 CL_later) =
    [MRes (Ok (RDeleted 1)); MCloned; MRes Panic; MRes (Ok (RAdded true 1))] /\
  (match contents w1 1 with Some (Ok (_, s)) => size (t_vals s) | _ => 7%nat end) = 2%nat /\
  (match contents w1 0 with Some (Ok (_, s)) => size (t_vals s) | _ => 7%nat end) = 3%nat.
Proof. vm_compute. repeat split; repeat constructor; try discriminate. Qed.

(** What Clone copies, and what a call on one of the trees does: the same as on a
    tree that was never cloned and has the same contents. *)
Theorem C36_clone_copies_partial : forall (T : Type) (zero : T) (c : idcfg) (ks : list mcmd) (i : nat) s,
  let w := fst (m_run (tree_calls zero c) (m_start () (tree_zero c)) ks) in
  contents w i = Some (Ok ((), s)) ->
  (let '(w', r) := m_step (tree_calls zero c) w (MClone i) in
   r = MCloned /\ contents w' (length (snd w)) = Some (Ok ((), clone s)) /\ contents w' i = Some (Ok ((), s))) /\
  forall o junk s' x, t_step zero c s o = Ok (s', x) ->
    let '(w', r) := m_step (tree_calls zero c) w (MCall i o junk) in
    r = MRes (Ok x) /\ contents w' i = Some (Ok ((), s')).
Proof. exact C36_clone_copies_partial_pf. Qed.
Print Assumptions C36_clone_copies_partial.

Example C36_copies_example :
  let w := fst (m_run (tree_calls 0 cfg_id32) (m_start () (tree_zero cfg_id32)) CL_ops) in
  exists s s', contents w 0 = Some (Ok ((), s)) /\ size (t_vals s) = 3%nat /\
    t_step 0 cfg_id32 s (TDelete (MyId 0x10000000 8) N.eqb 10) = Ok (s', RDeleted 1).
Proof. do 2 eexists. split; [vm_compute; reflexivity|]. split; vm_compute; reflexivity. Qed.

(** The same for tree16, tree32 and tree64. *)
Theorem C60_clones_are_independent_partial : forall (L : Type) (lstr : L -> string) (c : gcfg) (n : N) (g : gtree L)
    (ks1 ks2 : list mcmd) (j : nat),
  g_new c n = Ok g ->
  let w1 := fst (m_run (gtree_calls lstr c) (m_start (g_size g, g_length g) (g_tree g)) ks1) in
  let w2 := fst (m_run (gtree_calls lstr c) w1 ks2) in
  (j < length (snd w1))%nat -> Forall (spares j) ks2 ->
  contents w2 j = contents w1 j /\ (exists a s, contents w1 j = Some (Ok (a, s))) /\
  Forall (fun r => r <> MWild) (snd (m_run (gtree_calls lstr c) w1 ks2)).
Proof. exact C60_clones_are_independent_partial_pf. Qed.
Print Assumptions C60_clones_are_independent_partial.

Definition CL_gjunk : tree (option (tentry N)) := tree_zero cfg_id16.
Definition CL_gops : list (mcmd (T := option (tentry N)) (O := gop N)) :=
  [MCall 0 (GClaimID (MyId 8 16) 3) CL_gjunk; MClone 0; MCall 0 (GClaimFree 4) CL_gjunk].
Definition CL_glater : list (mcmd (T := option (tentry N)) (O := gop N)) :=
  [MCall 0 (GReleaseID (MyId 8 16)) CL_gjunk; MClone 1; MCall 0 (GReleaseByLabel (N.leb 4)) CL_gjunk].
Example C60_independent_example : exists g, g_new (L := N) cfg_tree16 4 = Ok g /\
  let w1 := fst (m_run (gtree_calls (fun _ => String.EmptyString) cfg_tree16) (m_start (g_size g, g_length g) (g_tree g)) CL_gops) in
  let w2 := fst (m_run (gtree_calls (fun _ => String.EmptyString) cfg_tree16) w1 CL_glater) in
  length (snd w1) = 2%nat /\ Forall (spares 1) CL_glater /\
  (match contents w2 1 with Some (Ok (_, s)) => size (t_vals s) | _ => 7%nat end) = 1%nat /\
  (match contents w2 0 with Some (Ok (_, s)) => size (t_vals s) | _ => 7%nat end) = 0%nat.
Proof. eexists. split; [reflexivity|]. vm_compute. repeat split; repeat constructor; try discriminate. Qed.

(** The same for the copies of tree16, tree32 and tree64. *)
Theorem C60_clone_copies_partial : forall (L : Type) (lstr : L -> string) (c : gcfg) (n : N) (g0 : gtree L)
    (ks : list mcmd) (i : nat) (g : gtree L),
  g_new c n = Ok g0 ->
  let w := fst (m_run (gtree_calls lstr c) (m_start (g_size g0, g_length g0) (g_tree g0)) ks) in
  let is w k (g : gtree L) := contents w k = Some (Ok ((g_size g, g_length g), g_tree g)) in
  is w i g ->
  (let '(w', r) := m_step (gtree_calls lstr c) w (MClone i) in
   r = MCloned /\ is w' (length (snd w)) (g_clone g) /\ is w' i g) /\
  forall o junk g' x, g_step lstr c g o = Ok (g', x) ->
    let '(w', r) := m_step (gtree_calls lstr c) w (MCall i o junk) in
    r = MRes (Ok x) /\ contents w' i = Some (Ok ((g_size g, g_length g), g_tree g')).
Proof. exact C60_clone_copies_partial_pf. Qed.
Print Assumptions C60_clone_copies_partial.

Example C60_copies_example : exists g0, g_new (L := N) cfg_tree16 4 = Ok g0 /\ exists g g',
  let w := fst (m_run (gtree_calls (fun _ => String.EmptyString) cfg_tree16) (m_start (g_size g0, g_length g0) (g_tree g0)) CL_gops) in
  contents w 0 = Some (Ok ((g_size g, g_length g), g_tree g)) /\
  g_step (fun _ => String.EmptyString) cfg_tree16 g (GReleaseID (MyId 8 16)) = Ok (g', GDone).
Proof.
  eexists. split; [reflexivity|].
  match goal with |- exists g g', let w := ?W in _ =>
    let x := eval vm_compute in (contents W 0) in
    match x with Some (Ok ((?a, ?b), ?s)) => exists (GTree s a b) end end.
  eexists. split; vm_compute; reflexivity.
Qed.

(** What the copy answers in general, while the copied tree has fewer than 2^w
    nodes: GetAll gives as many entries as on the original, all of them nil, so every
    call that looks at the entries panics, unless there are none. *)
Theorem C60_clone_reads_characterised : forall (L : Type) (c : gcfg) (n : N) (m : record L) (g : gtree L) es,
  c ∈ g_packages_16_32 -> g_hist any_op c n m g -> t_n (g_tree g) + 1 <= 2 ^ id_w (gc_id c) ->
  g_get_all g = Ok es ->
  g_get_all (g_clone g) = Ok (replicate (length es) None) /\
  (es <> [] ->
   (forall x, g_get (g_clone g) x = Panic) /\
   (forall sel, g_get_by_label (g_clone g) sel = Panic) /\
   (forall x, g_children c (g_clone g) x = Panic) /\ (forall x, g_parents c (g_clone g) x = Panic) /\
   (forall lstr x, i_id x <= g_size g -> g_step lstr c (g_clone g) (GReleaseID x) = Panic) /\
   (forall lstr sel, g_step lstr c (g_clone g) (GReleaseByLabel sel) = Panic) /\
   (forall lstr l, g_step lstr c (g_clone g) (GClaimFree l) = Panic)).
Proof. exact C60_clone_reads_characterised_pf. Qed.
Print Assumptions C60_clone_reads_characterised.

Definition CL_read_ops : list (gop N) := [GClaimID (MyId 8 14) 3; GClaimFree 4; GClaimID (MyId 2 16) 5].
Example C60_reads_example : exists m g, cfg_tree16 ∈ g_packages_16_32 /\ g_hist any_op cfg_tree16 4 m g /\
  t_n (g_tree g) + 1 <= 2 ^ 16 /\
  g_get_all g = Ok [Some (TEntry 2 16 5); Some (TEntry 8 14 3); Some (TEntry 12 16 4)].
Proof.
  destruct (g_new (L := N) cfg_tree16 4) as [g0| |] eqn:H0; [|discriminate H0..].
  destruct (C59_runs_return_partial_pf N (fun _ => String.EmptyString) any_op cfg_tree16 4 CL_read_ops g0)
    as (g & rs & H1 & H2); [left|done|repeat constructor; vm_compute; done|repeat constructor|by left|].
  exists (after_all cfg_tree16 ∅ CL_read_ops rs), g. split; [left|]. split; [done|].
  injection H0 as <-. clear H2. vm_compute in H1. injection H1 as <- _.
  split; [vm_compute; discriminate|vm_compute; reflexivity].
Qed.

(** The condition on the nodes: claims of k prefixes in all make at most 2k + 2 nodes,
    whatever is released in between. *)
Theorem C60_short_runs_have_few_nodes : forall (L : Type) (lstr : L -> string) (c : gcfg) (n : N) (os : list (gop L)) g0 g rs,
  g_new c n = Ok g0 -> g_run lstr c g0 os = Ok (g, rs) ->
  t_n (g_tree g) <= 2 + 2 * N.of_nat (growth_all c os).
Proof. exact C60_short_runs_have_few_nodes_pf. Qed.
Print Assumptions C60_short_runs_have_few_nodes.

From Coq Require Strings.String.
Import Coq.Strings.String.StringSyntax.
Local Open Scope string_scope.
Local Open Scope N_scope.
Example C60_few_nodes_example : 2 + 2 * N.of_nat (growth_all cfg_tree16 (CL_read_ops ++ [GClaimRange "16-31" 7; GReleaseID (MyId 8 14)])) + 1 <= 2 ^ 16.
Proof. vm_compute. discriminate. Qed.

(** The same for tree64, after every sequence of calls. *)
Theorem C60_tree64_clone_reads_characterised : forall (L : Type) (lstr : L -> string) (n : N) (os : list (gop L)) st rs,
  n <= 64 -> Forall (gop_ok cfg_tree64) os -> one_run n (∅, None) os = Some (st, rs) ->
  exists g, (do g <- g_new cfg_tree64 n; g_run lstr cfg_tree64 g os) = Ok (g, rs) /\
   (t_n (g_tree g) <= 2 ^ 64 ->
    g_Size (g_clone g) = g_Size g /\
    g_get_all (g_clone g) = Ok (replicate (size (fst st)) None) /\
    (fst st <> ∅ ->
     (forall x, g_get (g_clone g) x = Panic) /\
     (forall sel, g_get_by_label (g_clone g) sel = Panic) /\
     (forall x, g_children cfg_tree64 (g_clone g) x = Panic) /\
     (forall x, g_parents cfg_tree64 (g_clone g) x = Panic) /\
     (forall x, i_id x <= g_size g -> g_step lstr cfg_tree64 (g_clone g) (GReleaseID x) = Panic) /\
     (forall sel, g_step lstr cfg_tree64 (g_clone g) (GReleaseByLabel sel) = Panic))).
Proof. exact C60_tree64_clone_reads_characterised_pf. Qed.
Print Assumptions C60_tree64_clone_reads_characterised.

Definition CL_ops64 : list (gop N) := [GClaimID (MyId 8 62) 3; GClaimID (MyId 2 64) 5; GClaimID (MyId 99 64) 6; GReleaseByLabel (N.eqb 7)].
Example C60_tree64_reads_example : exists g rs, Forall (gop_ok cfg_tree64) CL_ops64 /\
  (exists st, one_run 4 (∅, None) CL_ops64 = Some (st, rs) /\ size (fst st) = 2%nat) /\
  (do g <- g_new cfg_tree64 4; g_run (fun _ => String.EmptyString) cfg_tree64 g CL_ops64) = Ok (g, rs) /\
  rs = [GDone; GDone; GErr EMaxId; GDone] /\ t_n (g_tree g) <= 2 ^ 64 /\
  g_get_all g = Ok [Some (TEntry 2 64 5); Some (TEntry 2 64 5)].
Proof.
  do 2 eexists. split; [repeat constructor; vm_compute; done|].
  split; [eexists; split; vm_compute; reflexivity|]. split; [vm_compute; reflexivity|]. split; [reflexivity|].
  split; [vm_compute; discriminate|vm_compute; reflexivity].
Qed.
