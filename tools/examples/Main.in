(*@ C89_handle_id *)
(** A tree16 of 2^4 ids with the range 4-11 claimed: the ids 5 and 2 are not
    claimed, the id 3 is, and 16 is above the size. *)
Definition ex_tree : res mtree :=
  do g <- g_new cfg_tree16 4;
  do a <- g_run label_string cfg_tree16 g [GClaimRange "4-11" range_label; GClaimID (MyId 3 16) (id_label 3)];
  Ok (fst a).
Example C89_example : (exists g m, ex_tree = Ok g /\ g_hist any_op cfg_tree16 4 m g) /\
  (do g <- ex_tree; do a <- handle_id g 5; Ok (snd a)) = Ok [LErr ENotFound; LParents [Some (TEntry 4 14 range_label)]] /\
  (do g <- ex_tree; do a <- handle_id g 2; Ok (snd a)) = Ok [LErr ENotFound; LParents []] /\
  (do g <- ex_tree; do a <- handle_id g 3; Ok (snd a)) = Panic /\
  (do g <- ex_tree; do a <- handle_id g 16; Ok (snd a)) = Panic.
Proof.
  split; [|repeat split; vm_compute; reflexivity]. unfold ex_tree.
  destruct (g_new (L := labels) cfg_tree16 4) as [g0|e|] eqn:E0; [|by vm_compute in E0..].
  destruct (C59_runs_return_partial_pf labels label_string any_op cfg_tree16 4
    [GClaimRange "4-11" range_label; GClaimID (MyId 3 16) (id_label 3)] g0) as (g & rs & Hr & Hh).
  { left. } { exact E0. } { repeat constructor. vm_compute. discriminate. } { repeat constructor. } { by left. }
  exists g. eexists. split; [cbn [rbind]; by rewrite Hr|exact Hh].
Qed.
(*@ C90_claim_loop *)
Example C90_claim_example :
  (do g <- g_new cfg_tree16 3; do a <- claim_loop g 8 0; Ok (snd a)) =
    Ok [LClaimed 0; LClaimed 1; LClaimed 2; LClaimed 3; LClaimed 4; LClaimed 5; LClaimed 6; LClaimed 7] /\
  (do g <- g_new cfg_tree16 3; do a <- claim_loop g 9 0; Ok (snd a)) = Panic.
Proof. split; vm_compute; reflexivity. Qed.
(*@ C90_claim_free_loop *)
Example C90_claim_free_example :
  (do g <- g_new cfg_tree16 1; do a <- claim_free_loop g 2 0; Ok (snd a)) =
    Ok [LEntry (MyId 0 16) {["id" := "0"]}; LEntry (MyId 1 16) {["id" := "1"]}] /\
  (do g <- g_new cfg_tree16 1; do a <- claim_free_loop g 3 0; Ok (snd a)) = Panic.
Proof. split; vm_compute; reflexivity. Qed.
(*@ C90_try_loop *)
Example C90_try_example :
  (do g <- g_new cfg_tree32 1; do a <- try_loop g 3 0; Ok (snd a)) =
    Ok [LEntry (MyId 0 32) {["id" := "0"]}; LEntry (MyId 1 32) {["id" := "1"]}; LFailed 2 EMaxId].
Proof. vm_compute. reflexivity. Qed.
(*@ C90_main *)
(** The condition holds of a check that accepts every key and value. *)
Example C90_main_example : exists ls, main (fun _ _ => true) = Ok ls /\ length ls = N.to_nat 12293 /\
  ls !! N.to_nat 12289 = Some (LErr ENotFound).
Proof.
  eexists. split; [exact (C90_main_pf (fun _ _ => true) eq_refl)|].
  split; vm_compute; reflexivity.
Qed.
(*@ C91_selector *)
Definition ex_valid (k v : string) : bool := bool_decide (k <> "").
Example C91_example :
  label_selector ex_valid {["" := "x"]} = None /\
  exists sel, label_selector ex_valid {["a" := "b"; "c" := "d"]} = Some sel /\
    sel {["a" := "b"; "c" := "d"; "e" := "f"]} = true /\ sel {["a" := "b"]} = false /\ sel {["a" := "b"; "c" := "x"]} = false.
Proof. split; [vm_compute; reflexivity|]. eexists. split; [reflexivity|]. repeat split; vm_compute; reflexivity. Qed.
(*@ C91_by_label *)
Example C91_by_label_example : exists sel, label_selector ex_valid {["a" := "b"]} = Some sel /\
  (do g <- g_new cfg_tree16 4;
   do a <- g_run label_string cfg_tree16 g [GClaimID (MyId 3 16) {["a" := "b"; "c" := "d"]}; GClaimID (MyId 7 16) {["c" := "d"]}];
   g_get_by_label (fst a) sel) = Ok [Some (TEntry 3 16 {["a" := "b"; "c" := "d"]})] /\
  (do g <- g_new cfg_tree16 4;
   do a <- g_run label_string cfg_tree16 g [GClaimID (MyId 3 16) {["a" := "b"; "c" := "d"]}; GClaimID (MyId 7 16) {["c" := "d"]};
     GReleaseByLabel sel];
   g_get_all (fst a)) = Ok [Some (TEntry 7 16 {["c" := "d"]})].
Proof. eexists. split; [reflexivity|]. split; vm_compute; reflexivity. Qed.
