(** Generated by tools/genprops.py from TreePrintFinal.v; only statements,
    each closed by the lemma of the same name with suffix _pf. *)
From Verif Require Import TreeFinal GTreeFinal TreePrintModel TreePrintFinal TreeShapeSpec TreeSpec GTreeSpec.

(** The values printed are those the plain map holds, each one as often as it is
    held; nothing of what was overwritten, moved or deleted is left.  The part left
    out: the 64-bit ids, and more than 2^w values at one prefix. *)
Theorem C88_printed_values_partial : forall (T : Type) (zero : T) (c : idcfg) (os : list (top T)) s rs,
  c ∈ id_packages_16_32 -> Forall (top_ok c) os -> roomy (id_w c) ∅ os ->
  t_run zero c (tree_zero c) os = Ok (s, rs) ->
  (print_values s).*2 ≡ₚ concat (map_to_list (fst (spec_run (id_w c) ∅ os))).*2 /\
  NoDup (print_values s).*1.
Proof. exact C88_printed_values_partial_pf. Qed.
Print Assumptions C88_printed_values_partial.

Definition V_ops : list (top N) :=
  [TSet (MyId 0x1000 8) 10; TAdd (MyId 0x1000 8) 11 None; TSet (MyId 0x1400 6) 12; TSet (MyId 0x1a00 7) 13;
   TSet (MyId 0x1a00 7) 16; TSet (MyId 0 0) 14; TDelete (MyId 0x1a00 7) N.eqb 16; TDelete (MyId 0x1000 8) N.eqb 10].
(** Values were overwritten, put back and deleted on the way; nodes were split and merged. *)
Example C88_example : Forall (top_ok cfg_id16) V_ops /\ roomy 16 (∅ : pmap N) V_ops /\
  exists s rs, t_run 0 cfg_id16 (tree_zero cfg_id16) V_ops = Ok (s, rs) /\
    (print_values s).*2 ≡ₚ [14; 11; 12] /\
    concat (map_to_list (fst (spec_run 16 (∅ : pmap N) V_ops))).*2 ≡ₚ [14; 11; 12].
Proof.
  split; [repeat constructor; vm_compute; done|].
  split; [apply (C31_short_runs_are_roomy_pf N cfg_id16); [left|vm_compute; discriminate]|].
  do 2 eexists. split; [vm_compute; reflexivity|].
  split; (apply (bool_decide_unpack _); vm_compute; exact I).
Qed.

(** When every value has been deleted again, nothing is printed. *)
Theorem C88_nothing_left_partial : forall (T : Type) (zero : T) (c : idcfg) (os : list (top T)) s rs,
  c ∈ id_packages_16_32 -> Forall (top_ok c) os -> roomy (id_w c) ∅ os ->
  t_run zero c (tree_zero c) os = Ok (s, rs) -> fst (spec_run (id_w c) ∅ os) = ∅ -> print_values s = [].
Proof. exact C88_nothing_left_partial_pf. Qed.
Print Assumptions C88_nothing_left_partial.

Definition V_all_ops : list (top N) := V_ops ++
  [TDelete (MyId 0 0) N.eqb 14; TDelete (MyId 0x1000 8) N.eqb 11; TDelete (MyId 0x1400 6) N.eqb 12].
Example C88_nothing_example : Forall (top_ok cfg_id16) V_all_ops /\ roomy 16 (∅ : pmap N) V_all_ops /\
  fst (spec_run 16 (∅ : pmap N) V_all_ops) = ∅ /\
  exists s rs, t_run 0 cfg_id16 (tree_zero cfg_id16) V_all_ops = Ok (s, rs) /\ print_values s = [].
Proof.
  split; [repeat constructor; vm_compute; done|].
  split; [apply (C31_short_runs_are_roomy_pf N cfg_id16); [left|vm_compute; discriminate]|].
  split; [unfold pmap; apply (bool_decide_unpack _); vm_compute; exact I|].
  do 2 eexists. split; vm_compute; reflexivity.
Qed.

(** The nodes printed are numbered from 0 without gaps, and they are few: for every
    sequence of calls and every width. *)
Theorem C88_printed_nodes : forall (T : Type) (zero : T) (c : idcfg) (os : list (top T)) s rs B,
  c ∈ id_packages -> Forall (top_ok c) os -> at_most_stops zero c os B ->
  t_run zero c (tree_zero c) os = Ok (s, rs) ->
  (print_nodes s).*1 = N.of_nat <$> seq 0 (length (print_nodes s)) /\
  Forall (fun l => is_Some l.2) (print_nodes s) /\
  N.of_nat (length (print_nodes s)) <= 2 + 2 * B.
Proof. exact C88_printed_nodes_pf. Qed.
Print Assumptions C88_printed_nodes.

Example C88_nodes_example : exists s rs, t_run 0 cfg_id16 (tree_zero cfg_id16) V_ops = Ok (s, rs) /\
  (print_nodes s).*1 = [0; 1; 2; 3; 4; 5; 6] /\
  Forall (fun k => exists n, (do a <- t_run 0 cfg_id16 (tree_zero cfg_id16) (take k V_ops); do vss <- iter_all 0 (fst a); Ok (length vss)) = Ok n /\ (n <= 4)%nat)
    (seq 0 (S (length V_ops))).
Proof.
  do 2 eexists. split; [vm_compute; reflexivity|]. split; [vm_compute; reflexivity|].
  cbn [V_ops length seq]. repeat constructor; (eexists; split; [vm_compute; reflexivity|lia]).
Qed.
Example C88_nodes_example_64 :
  (do a <- t_run 0 cfg_id64 (tree_zero cfg_id64) [TSet (MyId (2 ^ 60) 8) 10; TSet (MyId (2 ^ 61) 8) 11]; Ok (print_nodes (fst a)).*1) =
  Ok [0; 1; 2; 3; 4].
Proof. vm_compute. reflexivity. Qed.

(** The keys of the values printed are those of the nodes printed: a node i with
    ValCount values has the keys from i * 2^w. *)
Theorem C88_keys_of_nodes_partial : forall (T : Type) (zero : T) (c : idcfg) (os : list (top T)) s rs,
  c ∈ id_packages_16_32 -> Forall (top_ok c) os -> roomy (id_w c) ∅ os ->
  t_run zero c (tree_zero c) os = Ok (s, rs) ->
  forall k, k ∈ (print_values s).*1 <->
    exists i nd j, (i, Some nd) ∈ print_nodes s /\ j < n_cnt nd /\ k = i * 2 ^ id_w c + j.
Proof. exact C88_keys_of_nodes_partial_pf. Qed.
Print Assumptions C88_keys_of_nodes_partial.

Example C88_keys_example : exists s rs, t_run 0 cfg_id16 (tree_zero cfg_id16) V_ops = Ok (s, rs) /\
  (fun l : N * option node => (fst l, n_cnt <$> snd l)) <$> print_nodes s =
    [(0, Some 0); (1, Some 1); (2, Some 1); (3, Some 0); (4, Some 1); (5, Some 0); (6, Some 0)] /\
  (print_values s).*1 ≡ₚ [1 * 2 ^ 16; 2 * 2 ^ 16; 4 * 2 ^ 16].
Proof. do 2 eexists. split; [vm_compute; reflexivity|]. split; [vm_compute; reflexivity|]. apply (bool_decide_unpack _); vm_compute; exact I. Qed.

(** tree16 and tree32 print exactly the entries GetAll returns. *)
Theorem C88_entries_printed_partial : forall (L : Type) (P : gop L -> Prop) (c : gcfg) (n : N) (m : record L) (g : gtree L) es,
  c ∈ g_packages_16_32 -> g_hist P c n m g -> g_get_all g = Ok es ->
  (g_print_values g).*2 ≡ₚ es /\ NoDup (g_print_values g).*1.
Proof. exact C88_entries_printed_partial_pf. Qed.
Print Assumptions C88_entries_printed_partial.

Definition V_gops : list (gop N) :=
  [GClaimID (MyId 3 16) 1; GClaimID (MyId 8 14) 2; GUpdate (MyId 3 16) 5; GClaimFree 3; GReleaseID (MyId 8 14)].
Example C88_entries_example : exists g rs,
  g_run dec cfg_tree16 (GTree (tree_zero cfg_id16) 15 4) V_gops = Ok (g, rs) /\
  g_hist no_range cfg_tree16 4 (after_all cfg_tree16 ∅ V_gops rs) g.
Proof.
  apply (C59_runs_return_partial_pf N); [left|vm_compute; reflexivity| | |by left];
    repeat constructor; vm_compute; done.
Qed.
Example C88_entries_values :
  (do a <- g_run dec cfg_tree16 (GTree (tree_zero cfg_id16) 15 4) V_gops; do es <- g_get_all (fst a); Ok (es, length (g_print_values (fst a)))) =
  Ok ([Some (TEntry 2 16 3); Some (TEntry 3 16 5)], 2%nat).
Proof. vm_compute. reflexivity. Qed.

(** tree64: two entries are listed, one value is kept and printed. *)
Theorem C88_tree64_refuted : exists g rs,
  (do g <- g_new (L := N) cfg_tree64 64;
   g_run dec cfg_tree64 g [GClaimID (MyId 0 64) 1; GClaimID (MyId 1 64) 2]) = Ok (g, rs) /\
  g_Size g = Ok 2 /\ length (g_print_values g) = 1%nat.
Proof. exact C88_tree64_refuted_pf. Qed.
Print Assumptions C88_tree64_refuted.
