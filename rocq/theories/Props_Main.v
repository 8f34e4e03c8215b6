(** Generated by tools/genprops.py from MainFinal.v; only statements,
    each closed by the lemma of the same name with suffix _pf. *)
From Verif Require Import GTreeFinal MainSpec MainFinal TreeSpec GTreeSpec.
From Coq Require Strings.String.
Import Coq.Strings.String.StringSyntax.
Local Open Scope string_scope.
Local Open Scope N_scope.

(** handleId on a tree16 in any state: it panics exactly if the id is claimed
    already or above the size of the tree.  Otherwise it claims the id without
    labels, changes nothing else, and prints the entries that contain the id. *)
Theorem C89_handle_id : forall (n : N) (m : record labels) (g : mtree) (v : N),
  g_hist any_op cfg_tree16 n m g -> v < 2 ^ 16 ->
  (handle_id g v = Panic <-> (exists e, g_get g (MyId v 16) = Ok e) \/ 2 ^ n <= v) /\
  (handle_id g v <> Panic ->
   exists g' es ps, handle_id g v = Ok (g', [LErr ENotFound; LParents (Some <$> ps)]) /\
     g_get g' (MyId v 16) = Ok (TEntry v 16 ∅) /\
     (forall y, gid_ok cfg_tree16 y -> prefix 16 y <> prefix 16 (MyId v 16) -> g_get g' y = g_get g y) /\
     g_get_all g = Ok (Some <$> es) /\
     forall e, e ∈ ps <-> e ∈ es /\ te_len e < 16 /\ covers 16 (eid e) v).
Proof. exact C89_handle_id_pf. Qed.
Print Assumptions C89_handle_id.

(** A tree16 of 2^4 ids with the range 4-11 claimed: the ids 5 and 2 are not
    claimed, the id 3 is, and 16 is above the size. *)
Definition ex_tree : res mtree :=
  do g <- g_new cfg_tree16 4;
  do a <- g_run label_string cfg_tree16 g [GClaimRange "4-11" range_label; GClaimID (MyId 3 16) (id_label 3)];
  Ok (fst a).
Example C89_example : (exists g m, ex_tree = Ok g /\ g_hist any_op cfg_tree16 4 m g) /\
  (do g <- ex_tree; do a <- handle_id g 5; Ok (snd a)) = Ok [LErr ENotFound; LParents [Some (TEntry 4 14 range_label)]] /\
  (do g <- ex_tree; do a <- handle_id g 2; Ok (snd a)) = Ok [LErr ENotFound; LParents []] /\
  (do g <- ex_tree; do a <- handle_id g 3; Ok (snd a)) = Panic /\
  (do g <- ex_tree; do a <- handle_id g 16; Ok (snd a)) = Panic.
Proof.
  split; [|repeat split; vm_compute; reflexivity]. unfold ex_tree.
  destruct (g_new (L := labels) cfg_tree16 4) as [g0|e|] eqn:E0; [|by vm_compute in E0..].
  destruct (C59_runs_return_partial_pf labels label_string any_op cfg_tree16 4
    [GClaimRange "4-11" range_label; GClaimID (MyId 3 16) (id_label 3)] g0) as (g & rs & Hr & Hh).
  { left. } { exact E0. } { repeat constructor. vm_compute. discriminate. } { repeat constructor. } { by left. }
  exists g. eexists. split; [cbn [rbind]; by rewrite Hr|exact Hh].
Qed.

(** The loop of main with ClaimID on a new tree16 of 2^n ids.  With at most 2^n
    turns it does not panic, and then the ids below k are claimed, each with its
    label, and no other; with more turns it panics. *)
Theorem C90_claim_loop : forall (n : N) (k : nat), n <= 16 -> N.of_nat k <= 2 ^ 16 ->
  exists g0, g_new cfg_tree16 n = Ok g0 /\
  (2 ^ n < N.of_nat k -> claim_loop g0 k 0 = Panic) /\
  (N.of_nat k <= 2 ^ n -> exists g, claim_loop g0 k 0 = Ok (g, LClaimed <$> ids_below k) /\
    forall y, gid_ok cfg_tree16 y -> g_get g y =
      if (i_len y =? 16) && (i_id y <? N.of_nat k) then Ok (TEntry (i_id y) 16 (numbered (i_id y))) else Err ENotFound).
Proof. exact C90_claim_loop_pf. Qed.
Print Assumptions C90_claim_loop.

Example C90_claim_example :
  (do g <- g_new cfg_tree16 3; do a <- claim_loop g 8 0; Ok (snd a)) =
    Ok [LClaimed 0; LClaimed 1; LClaimed 2; LClaimed 3; LClaimed 4; LClaimed 5; LClaimed 6; LClaimed 7] /\
  (do g <- g_new cfg_tree16 3; do a <- claim_loop g 9 0; Ok (snd a)) = Panic.
Proof. split; vm_compute; reflexivity. Qed.

(** The loop of main with ClaimFree on a new tree16 of 2^n ids, n at least 1: the
    i-th turn gets the id i, with its label, and after 2^n turns the next panics. *)
Theorem C90_claim_free_loop : forall (n : N) (k : nat), 1 <= n <= 16 ->
  exists g0, g_new cfg_tree16 n = Ok g0 /\
    (2 ^ n < N.of_nat k -> claim_free_loop g0 k 0 = Panic) /\
    (N.of_nat k <= 2 ^ n ->
     exists g, claim_free_loop g0 k 0 = Ok (g, (fun i => LEntry (MyId i 16) (numbered i)) <$> ids_below k)).
Proof. exact C90_claim_free_loop_pf. Qed.
Print Assumptions C90_claim_free_loop.

Example C90_claim_free_example :
  (do g <- g_new cfg_tree16 1; do a <- claim_free_loop g 2 0; Ok (snd a)) =
    Ok [LEntry (MyId 0 16) {["id" := "0"]}; LEntry (MyId 1 16) {["id" := "1"]}] /\
  (do g <- g_new cfg_tree16 1; do a <- claim_free_loop g 3 0; Ok (snd a)) = Panic.
Proof. split; vm_compute; reflexivity. Qed.

(** The same loop on a new tree32 of 2^n ids goes on after an error.  With n at
    most 16 the i-th turn gets the id i as long as there is one. *)
Theorem C90_try_loop : forall (n : N) (k : nat), n <= 31 ->
  exists g0 g, g_new cfg_tree32 n = Ok g0 /\
    try_loop g0 k 0 = Ok (g, (fun i => if i <? 2 ^ N.min n (32 - n) then LEntry (MyId i 32) (numbered i)
                                       else LFailed i (if n <? 16 then EMaxId else ENoFreeId)) <$> ids_below k).
Proof. exact C90_try_loop_pf. Qed.
Print Assumptions C90_try_loop.

Example C90_try_example :
  (do g <- g_new cfg_tree32 1; do a <- try_loop g 3 0; Ok (snd a)) =
    Ok [LEntry (MyId 0 32) {["id" := "0"]}; LEntry (MyId 1 32) {["id" := "1"]}; LFailed 2 EMaxId].
Proof. vm_compute. reflexivity. Qed.

(** main does not panic, provided the label range=test makes a requirement, and
    this is what it prints. *)
Theorem C90_main : forall valid, valid "range" "test" = true ->
  main valid = Ok (LLast (MyId 4095 16) :: (LClaimed <$> ids_below (N.to_nat 4096)) ++
    ((fun i => LEntry (MyId i 16) (numbered i)) <$> ids_below (N.to_nat 4096)) ++
    ((fun i => LEntry (MyId i 32) (numbered i)) <$> ids_below (N.to_nat 4096)) ++
    [LErr ENotFound; LParents [Some (TEntry 1000 13 range_test)]; LErr ENotFound; LParents []]).
Proof. exact C90_main_pf. Qed.
Print Assumptions C90_main.

(** The condition holds of a check that accepts every key and value. *)
Example C90_main_example : exists ls, main (fun _ _ => true) = Ok ls /\ length ls = N.to_nat 12293 /\
  ls !! N.to_nat 12289 = Some (LErr ENotFound).
Proof.
  eexists. split; [exact (C90_main_pf (fun _ _ => true) eq_refl)|].
  split; vm_compute; reflexivity.
Qed.

(** GetLabelSelector fails exactly if a pair of the map makes no requirement; its
    selector matches the label sets that include the map. *)
Theorem C91_selector : forall (valid : string -> string -> bool) (l : labels),
  (label_selector valid l = None <-> exists k v, l !! k = Some v /\ valid k v = false) /\
  forall sel, label_selector valid l = Some sel -> forall m, sel m = true <-> l ⊆ m.
Proof. exact C91_selector_pf. Qed.
Print Assumptions C91_selector.

Definition ex_valid (k v : string) : bool := bool_decide (k <> "").
Example C91_example :
  label_selector ex_valid {["" := "x"]} = None /\
  exists sel, label_selector ex_valid {["a" := "b"; "c" := "d"]} = Some sel /\
    sel {["a" := "b"; "c" := "d"; "e" := "f"]} = true /\ sel {["a" := "b"]} = false /\ sel {["a" := "b"; "c" := "x"]} = false.
Proof. split; [vm_compute; reflexivity|]. eexists. split; [reflexivity|]. repeat split; vm_compute; reflexivity. Qed.

(** With such a selector GetByLabel returns the entries, in order, whose labels
    include the map, and ReleaseByLabel leaves the others. *)
Theorem C91_by_label : forall (valid : string -> string -> bool) (l : labels) sel (c : gcfg) (n : N) (m : record labels) (g : mtree),
  c ∈ g_packages_16_32 -> g_hist any_op c n m g -> g_room c m (GReleaseByLabel sel) ->
  label_selector valid l = Some sel ->
  exists es g', g_get_all g = Ok (Some <$> es) /\
    g_get_by_label g sel = Ok (Some <$> filter (fun e => l ⊆ te_labels e) es) /\
    g_release_by_label label_string c g sel = Ok g' /\
    g_get_all g' = Ok (Some <$> filter (fun e => l ⊈ te_labels e) es).
Proof. exact C91_by_label_pf. Qed.
Print Assumptions C91_by_label.

Example C91_by_label_example : exists sel, label_selector ex_valid {["a" := "b"]} = Some sel /\
  (do g <- g_new cfg_tree16 4;
   do a <- g_run label_string cfg_tree16 g [GClaimID (MyId 3 16) {["a" := "b"; "c" := "d"]}; GClaimID (MyId 7 16) {["c" := "d"]}];
   g_get_by_label (fst a) sel) = Ok [Some (TEntry 3 16 {["a" := "b"; "c" := "d"]})] /\
  (do g <- g_new cfg_tree16 4;
   do a <- g_run label_string cfg_tree16 g [GClaimID (MyId 3 16) {["a" := "b"; "c" := "d"]}; GClaimID (MyId 7 16) {["c" := "d"]};
     GReleaseByLabel sel];
   g_get_all (fst a)) = Ok [Some (TEntry 7 16 {["c" := "d"]})].
Proof. eexists. split; [reflexivity|]. split; vm_compute; reflexivity. Qed.
