(** Generated by tools/genprops.py from Tree64Final.v; only statements,
    each closed by the lemma of the same name with suffix _pf. *)
From Verif Require Import TreeFinal GTreeFinal Tree64Final TreeSpec GTreeSpec Tree64Spec.
From Coq Require Strings.String.
Import Coq.Strings.String.StringSyntax.
Local Open Scope string_scope.
Local Open Scope N_scope.

(** Set and Delete on a tree over 64-bit ids: the set of prefixes is right, and
    so are the results, but all prefixes share one value, that of the last Set;
    a Delete that finds it sets it to the zero value.  No call panics, and the
    node array never moves under a pointer. *)
Theorem C73_one_value : forall (T : Type) (zero : T) (os : list (top T)),
  Forall (top_ok cfg_id64) os -> Forall set_or_delete os ->
  exists s P cell,
    cell_run zero (∅, zero) os = ((P, cell), snd (cell_run zero (∅, zero) os)) /\
    t_run zero cfg_id64 (tree_zero cfg_id64) os = Ok (s, snd (cell_run zero (∅, zero) os)) /\
    iter_all zero s = Ok (replicate (size P) [cell]) /\ t_gen s = 0.
Proof. exact C73_one_value_pf. Qed.
Print Assumptions C73_one_value.

(** Three prefixes are set; a Delete of the first finds the value of the third,
    and leaves two prefixes with the zero value. *)
Definition T64_ops : list (top N) :=
  [TSet (MyId 0 1) 5; TSet (MyId 3 64) 6; TSet (MyId (2 ^ 63) 1) 7; TSet (MyId 3 64) 8;
   TDelete (MyId 3 64) N.eqb 6; TDelete (MyId 0 1) N.eqb 8].
Example C73_example :
  Forall (top_ok cfg_id64) T64_ops /\ Forall set_or_delete T64_ops /\
  snd (cell_run 0 (∅, 0) T64_ops) =
    [RAdded true 1; RAdded true 1; RAdded true 1; RAdded false 1; RDeleted 0; RDeleted 1] /\
  (do a <- t_run 0 cfg_id64 (tree_zero cfg_id64) T64_ops; iter_all 0 (fst a)) = Ok [[0]; [0]].
Proof.
  split; [by repeat (apply Forall_cons; split; [by vm_compute|])|].
  split; [by repeat (apply Forall_cons; split; [done|])|].
  split; vm_compute; reflexivity.
Qed.

(** The iteration: one stop for every prefix, each with the one value; then Next is
    false, and stays false. *)
Theorem C33_id64_values : forall (T : Type) (zero : T) (os : list (top T)) s rs,
  Forall (top_ok cfg_id64) os -> Forall set_or_delete os ->
  t_run zero cfg_id64 (tree_zero cfg_id64) os = Ok (s, rs) ->
  exists P cell it, cell_run zero (∅, zero) os = ((P, cell), rs) /\
    iter_loop zero (S (N.to_nat (t_n s))) s iterate = Ok (replicate (size P) [cell], it) /\
    iter_next s it = Ok (it, false).
Proof. exact C33_id64_values_pf. Qed.
Print Assumptions C33_id64_values.

Example C33_id64_example : exists s rs,
  t_run 0 cfg_id64 (tree_zero cfg_id64) (take 4 T64_ops) = Ok (s, rs) /\
  (do a <- iter_loop 0 (S (N.to_nat (t_n s))) s iterate; Ok (fst a)) = Ok [[8]; [8]; [8]] /\
  (size (fst (fst (cell_run 0 (∅, 0) (take 4 T64_ops)))), snd (fst (cell_run 0 (∅, 0) (take 4 T64_ops)))) = (3%nat, 8).
Proof. do 2 eexists. split; [vm_compute; reflexivity|]. split; vm_compute; reflexivity. Qed.

(** Every sequence of calls on every tree64: results, panics and what can be read
    afterwards. *)
Theorem C74_tree64_exact : forall (L : Type) (lstr : L -> string) (n : N) (os : list (gop L)),
  n <= 64 -> Forall (gop_ok cfg_tree64) os ->
  match one_run n (∅, None) os with
  | Some (st, rs) =>
      exists g, (do g <- g_new cfg_tree64 n; g_run lstr cfg_tree64 g os) = Ok (g, rs) /\ sees g st
  | None => (do g <- g_new cfg_tree64 n; g_run lstr cfg_tree64 g os) = Panic
  end.
Proof. exact C74_tree64_exact_pf. Qed.
Print Assumptions C74_tree64_exact.

Definition T64_calls : list (gop N) :=
  [GClaimID (MyId 0 1) 5; GClaimRange "4-6" 6; GUpdate (MyId 9 64) 7; GReleaseID (MyId 0 1); GReleaseID (MyId 9 64)].
Example C74_example :
  Forall (gop_ok cfg_tree64) T64_calls /\
  (do g <- g_new cfg_tree64 64; do a <- g_run dec cfg_tree64 g T64_calls; Ok (snd a, g_get_all (fst a), g_get (fst a) (MyId 0 1))) =
    Ok ([GDone; GDone; GDone; GDone; GDone], Ok [None; None; None], Panic) /\
  (exists st, one_run 64 (∅, None) T64_calls = Some (st, [GDone; GDone; GDone; GDone; GDone]) /\
     snd st = None /\ size (fst st) = 3%nat) /\
  one_run 64 (∅, None) (T64_calls ++ [GReleaseID (MyId 0 1)]) = None.
Proof.
  split; [by repeat (apply Forall_cons; split; [by vm_compute|])|].
  split; [by vm_compute|]. split; [|by vm_compute].
  destruct (one_run 64 (∅, None) T64_calls) as [[st rs]|] eqn:E; [|by vm_compute in E].
  exists st. assert (H : match one_run 64 (∅, None) T64_calls with
    | Some (st, rs) => (rs, snd st, size (fst st)) = ([GDone; GDone; GDone; GDone; GDone], None, 3%nat)
    | None => False end) by (by vm_compute). rewrite E in H. clear E. injection H as -> -> ->. done.
Qed.

(** ClaimFree panics on every tree64, whatever was called before. *)
Theorem C47_claim_free_always_panics_refuted : forall (L : Type) (lstr : L -> string) (n : N) (os : list (gop L)) l,
  n <= 64 -> Forall (gop_ok cfg_tree64) os ->
  (do g <- g_new cfg_tree64 n; g_run lstr cfg_tree64 g (os ++ [GClaimFree l])) = Panic.
Proof. exact C47_claim_free_always_panics_refuted_pf. Qed.
Print Assumptions C47_claim_free_always_panics_refuted.

Example C47_always_example : Forall (gop_ok cfg_tree64) [GClaimID (MyId 0 1) 5; GClaimID (MyId 7 64) 6; GReleaseID (MyId 7 64)] /\
  (do g <- g_new cfg_tree64 64; g_run dec cfg_tree64 g [GClaimID (MyId 0 1) 5; GClaimID (MyId 7 64) 6; GClaimFree 7]) = Panic.
Proof. split; [by repeat (apply Forall_cons; split; [by vm_compute|])|by vm_compute]. Qed.

(** tree64: a claim hides the claim before it. *)
Theorem C48_earlier_claim_lost_refuted : forall (L : Type) (lstr : L -> string) (n : N) x y (l1 l2 : L),
  n <= 64 -> gid_ok cfg_tree64 x -> gid_ok cfg_tree64 y -> i_id x < 2 ^ n -> i_id y < 2 ^ n ->
  prefix 64 x <> prefix 64 y ->
  exists g, (do g <- g_new cfg_tree64 n; g_run lstr cfg_tree64 g [GClaimID x l1; GClaimID y l2]) = Ok (g, [GDone; GDone]) /\
    g_Size g = Ok 2 /\ g_get g x = Err ENotFound /\
    g_get_all g = Ok [Some (TEntry (i_id y) (i_len y) l2); Some (TEntry (i_id y) (i_len y) l2)].
Proof. exact C48_earlier_claim_lost_refuted_pf. Qed.
Print Assumptions C48_earlier_claim_lost_refuted.

Example C48_lost_example : gid_ok cfg_tree64 (MyId 7 64) /\ gid_ok cfg_tree64 (MyId 8 61) /\
  prefix 64 (MyId 7 64) <> prefix 64 (MyId 8 61).
Proof. split; [by vm_compute|]. split; [by vm_compute|]. by vm_compute. Qed.

(** tree64: after the last claimed id is released, reading the others panics. *)
Theorem C48_release_breaks_others_refuted : forall (L : Type) (lstr : L -> string) (n : N) x y z (l1 l2 : L),
  n <= 64 -> gid_ok cfg_tree64 x -> gid_ok cfg_tree64 y -> i_id x < 2 ^ n -> i_id y < 2 ^ n -> i_id z < 2 ^ n ->
  prefix 64 x <> prefix 64 y ->
  exists g, (do g <- g_new cfg_tree64 n; g_run lstr cfg_tree64 g [GClaimID x l1; GClaimID y l2; GReleaseID y]) =
      Ok (g, [GDone; GDone; GDone]) /\
    g_Size g = Ok 1 /\ g_get_all g = Ok [None] /\ g_get g z = Panic /\
    g_step lstr cfg_tree64 g (GReleaseID z) = Panic.
Proof. exact C48_release_breaks_others_refuted_pf. Qed.
Print Assumptions C48_release_breaks_others_refuted.

Example C48_breaks_example :
  (do g <- g_new cfg_tree64 64; do a <- g_run dec cfg_tree64 g [GClaimID (MyId 7 64) 1; GClaimID (MyId 8 61) 2; GReleaseID (MyId 8 61)];
   Ok (g_get (fst a) (MyId 7 64))) = Ok Panic.
Proof. vm_compute. reflexivity. Qed.

(** tree64: ReleaseID of a claimed id succeeds and removes nothing. *)
Theorem C40_tree64_refuted : forall (L : Type) (lstr : L -> string) (n : N) x y (l1 l2 : L),
  n <= 64 -> gid_ok cfg_tree64 x -> gid_ok cfg_tree64 y -> i_id x < 2 ^ n -> i_id y < 2 ^ n ->
  prefix 64 x <> prefix 64 y ->
  exists g, (do g <- g_new cfg_tree64 n; g_run lstr cfg_tree64 g [GClaimID x l1; GClaimID y l2; GReleaseID x]) =
      Ok (g, [GDone; GDone; GDone]) /\
    g_Size g = Ok 2.
Proof. exact C40_tree64_refuted_pf. Qed.
Print Assumptions C40_tree64_refuted.

Example C40_tree64_example :
  prefix 64 (MyId 7 64) <> prefix 64 (MyId 8 61) /\
  (do g <- g_new cfg_tree64 64; do a <- g_run dec cfg_tree64 g [GClaimID (MyId 7 64) 1; GClaimID (MyId 8 61) 2; GReleaseID (MyId 7 64)];
   Ok (snd a, g_Size (fst a), g_get_all (fst a))) = Ok ([GDone; GDone; GDone], Ok 2, Ok [Some (TEntry 8 61 2); Some (TEntry 8 61 2)]).
Proof. split; by vm_compute. Qed.

(** tree64: ReleaseByLabel loses an entry whose labels do not match. *)
Theorem C41_tree64_refuted : forall (L : Type) (lstr : L -> string) (n : N) x y (l1 l2 : L) (sel : L -> bool),
  n <= 64 -> gid_ok cfg_tree64 x -> gid_ok cfg_tree64 y -> i_id x < 2 ^ n -> i_id y < 2 ^ n ->
  prefix 64 x <> prefix 64 y -> sel l1 = false -> sel l2 = true ->
  exists g, (do g <- g_new cfg_tree64 n; g_run lstr cfg_tree64 g [GClaimID x l1; GClaimID y l2; GReleaseByLabel sel]) =
      Ok (g, [GDone; GDone; GDone]) /\
    g_get_all g = Ok [None] /\ g_get g x = Panic /\ g_get_by_label g sel = Panic.
Proof. exact C41_tree64_refuted_pf. Qed.
Print Assumptions C41_tree64_refuted.

Example C41_tree64_example :
  (do g <- g_new cfg_tree64 64; do a <- g_run dec cfg_tree64 g [GClaimID (MyId 7 64) 1; GClaimID (MyId 8 61) 2; GReleaseByLabel (N.eqb 2)];
   Ok (snd a, g_get_all (fst a), g_get (fst a) (MyId 7 64))) = Ok ([GDone; GDone; GDone], Ok [None], Panic).
Proof. vm_compute. reflexivity. Qed.

(** tree64: the listings show the last claimed entry once for every stored prefix;
    the other entry appears in none of them. *)
Theorem C42_tree64_refuted : forall (L : Type) (lstr : L -> string) (n : N) x y (l1 l2 : L),
  n <= 64 -> gid_ok cfg_tree64 x -> gid_ok cfg_tree64 y -> i_id x < 2 ^ n -> i_id y < 2 ^ n ->
  prefix 64 x <> prefix 64 y ->
  exists g, (do g <- g_new cfg_tree64 n; g_run lstr cfg_tree64 g [GClaimID x l1; GClaimID y l2]) = Ok (g, [GDone; GDone]) /\
    g_get_all g = Ok (replicate 2 (Some (TEntry (i_id y) (i_len y) l2))) /\
    forall sel, g_get_by_label g sel = Ok (if sel l2 then replicate 2 (Some (TEntry (i_id y) (i_len y) l2)) else []).
Proof. exact C42_tree64_refuted_pf. Qed.
Print Assumptions C42_tree64_refuted.

Example C42_tree64_example :
  (do g <- g_new cfg_tree64 64; do a <- g_run dec cfg_tree64 g [GClaimID (MyId 7 64) 1; GClaimID (MyId 8 61) 2];
   Ok (g_get_by_label (fst a) (N.eqb 1), g_get_by_label (fst a) (N.eqb 2))) = Ok (Ok [], Ok [Some (TEntry 8 61 2); Some (TEntry 8 61 2)]).
Proof. vm_compute. reflexivity. Qed.

(** tree64: Children lists the last claimed entry once for every stored prefix. *)
Theorem C43_tree64_refuted : forall (L : Type) (lstr : L -> string) (n : N) x y (l1 l2 : L),
  n <= 64 -> gid_ok cfg_tree64 x -> gid_ok cfg_tree64 y -> i_id x < 2 ^ n -> i_id y < 2 ^ n ->
  prefix 64 x <> prefix 64 y -> 0 < i_len y ->
  exists g, (do g <- g_new cfg_tree64 n; g_run lstr cfg_tree64 g [GClaimID x l1; GClaimID y l2]) = Ok (g, [GDone; GDone]) /\
    g_children cfg_tree64 g (MyId 0 0) = Ok (replicate 2 (Some (TEntry (i_id y) (i_len y) l2))).
Proof. exact C43_tree64_refuted_pf. Qed.
Print Assumptions C43_tree64_refuted.

Example C43_tree64_example :
  (do g <- g_new cfg_tree64 64; do a <- g_run dec cfg_tree64 g [GClaimID (MyId 7 64) 1; GClaimID (MyId 8 61) 2];
   Ok (g_children cfg_tree64 (fst a) (MyId 0 0), g_children cfg_tree64 (fst a) (MyId 7 63))) =
  Ok (Ok [Some (TEntry 8 61 2); Some (TEntry 8 61 2)], Ok []).
Proof. vm_compute. reflexivity. Qed.

(** tree64: the entry claimed or updated last is returned, after every history that
    has not panicked. *)
Theorem C37_tree64_last_claim_partial : forall (L : Type) (lstr : L -> string) (n : N) (os : list (gop L)) x (l : L) o g rs,
  n <= 64 -> Forall (gop_ok cfg_tree64) os ->
  gid_ok cfg_tree64 x -> i_id x < 2 ^ n -> o = GClaimID x l \/ o = GUpdate x l ->
  (do g <- g_new cfg_tree64 n; g_run lstr cfg_tree64 g (os ++ [o])) = Ok (g, rs) ->
  g_get g x = Ok (TEntry (i_id x) (i_len x) l).
Proof. exact C37_tree64_last_claim_partial_pf. Qed.
Print Assumptions C37_tree64_last_claim_partial.

Example C37_tree64_example :
  Forall (gop_ok cfg_tree64) [GClaimID (MyId 7 64) 1; GClaimID (MyId 8 61) 2; GReleaseID (MyId 8 61)] /\
  (do g <- g_new cfg_tree64 64; do a <- g_run dec cfg_tree64 g ([GClaimID (MyId 7 64) 1; GClaimID (MyId 8 61) 2; GReleaseID (MyId 8 61)] ++ [GUpdate (MyId 5 64) 3]);
   Ok (g_get (fst a) (MyId 5 64))) = Ok (Ok (TEntry 5 64 3)).
Proof. split; [by repeat (apply Forall_cons; split; [by vm_compute|])|by vm_compute]. Qed.

(** tree64: of the prefixes of the range, Get finds the last one only. *)
Theorem C49_tree64_only_last_prefix_refuted : forall (L : Type) (lstr : L -> string) (n : N) (os : list (gop L)) g rs s (l : L) a b,
  n <= 64 -> Forall (gop_ok cfg_tree64) os ->
  (do g <- g_new cfg_tree64 n; g_run lstr cfg_tree64 g (os ++ [GClaimRange s l])) = Ok (g, rs) ->
  parse_range cfg_id64 s = Ok (range_from cfg_id64 a b) -> a <= b -> ~ id64_bad_range a b ->
  last rs = Some GDone /\
  exists ids y, is_decomposition 64 ids a b /\ last ids = Some y /\
    g_get g y = Ok (TEntry (i_id y) (i_len y) l) /\ (forall x, x <> y -> g_get g x = Err ENotFound).
Proof. exact C49_tree64_only_last_prefix_refuted_pf. Qed.
Print Assumptions C49_tree64_only_last_prefix_refuted.

Example C49_tree64_example :
  parse_range cfg_id64 "4-6" = Ok (range_from cfg_id64 4 6) /\ ~ id64_bad_range 4 6 /\
  range_ids cfg_id64 (range_from cfg_id64 4 6) = Ok [MyId 4 63; MyId 6 64] /\
  (do g <- g_new cfg_tree64 64; do a <- g_run dec cfg_tree64 g ([GClaimID (MyId 9 64) 1] ++ [GClaimRange "4-6" 6]);
   Ok (snd a, g_get (fst a) (MyId 4 63), g_get (fst a) (MyId 6 64))) =
    Ok ([GDone; GDone], Err ENotFound, Ok (TEntry 6 64 6)).
Proof.
  split; [by vm_compute|]. split; [unfold id64_bad_range; vm_compute; intuition congruence|]. split; by vm_compute.
Qed.

(** tree64: a reversed range is not refused either; its last prefix becomes the
    entry of the tree. *)
Theorem C77_tree64_reversed_claim_range_refuted : forall (L : Type) (lstr : L -> string) (n : N) (os : list (gop L)) g rs s (l : L) a b,
  n <= 64 -> Forall (gop_ok cfg_tree64) os ->
  (do g <- g_new cfg_tree64 n; g_run lstr cfg_tree64 g (os ++ [GClaimRange s l])) = Ok (g, rs) ->
  parse_range cfg_id64 s = Ok (range_from cfg_id64 a b) -> b < a ->
  last rs = Some GDone /\ exists y, g_get g y = Ok (TEntry (i_id y) (i_len y) l).
Proof. exact C77_tree64_reversed_claim_range_refuted_pf. Qed.
Print Assumptions C77_tree64_reversed_claim_range_refuted.

Example C77_tree64_example :
  parse_range cfg_id64 "6-4" = Ok (range_from cfg_id64 6 4) /\
  (do g <- g_new cfg_tree64 64; do a <- g_run dec cfg_tree64 g ([GClaimID (MyId 9 64) 1] ++ [GClaimRange "6-4" 6]);
   Ok (snd a, g_get (fst a) (MyId 4 64))) = Ok ([GDone; GDone], Ok (TEntry 4 64 6)).
Proof. split; by vm_compute. Qed.
