(*@ C71_table_labels_change_refuted *)
(** The map at reference 1 has the label a=b when id 5 is claimed with it. *)
Definition ex_heap : lheap := {[ 1 := {[ "a" := "b" ]} ]}.
Definition ex_shared : tableN lref := fst (tn_run (tn_new cfg_table16 0 9) [TClaim 5 1]).
Example C71_example :
  tn_reachable cfg_table16 0 9 (tn_new (L := lref) cfg_table16 0 9) /\
  (exists e, snd (tn_step ex_shared (TGet 5)) = TREntry (Ok e) /\
    te_labels (seen ex_heap e) !! "c" = None /\ te_labels (seen (write ex_heap 1 "c" "d") e) !! "c" = Some "d").
Proof. split; [by exists []|]. eexists. split; [vm_compute; reflexivity|]. split; vm_compute; reflexivity. Qed.
(*@ C71_table_other_maps_partial *)
Example C71_other_example :
  seen (write ex_heap 2 "c" "d") (TEntry 5 16 1) = seen ex_heap (TEntry 5 16 1) /\ tn_claimed ex_shared !! 5 = Some 1.
Proof. split; vm_compute; reflexivity. Qed.
(*@ C71_release_by_label_follows_the_map *)
(** Two ids claimed with different maps; a label written to the first map later
    decides which of them is released. *)
Example C71_release_example :
  let h := write ex_heap 1 "c" "d" in let sel := fun l : labels => bool_decide (l !! "c" = Some "d") in
  (do g <- g_new cfg_tree16 4;
   do a <- g_run (fun _ => "") cfg_tree16 g [GClaimID (MyId 3 16) 1; GClaimID (MyId 7 16) 2; GReleaseByLabel (selects h sel)];
   g_get_all (fst a)) = Ok [Some (TEntry 7 16 2)].
Proof. vm_compute. reflexivity. Qed.
(*@ C71_claim_range_shares_refuted *)
Example C71_range_example :
  (do g <- g_new cfg_tree16 4; do a <- g_run (fun _ => "") cfg_tree16 g [GClaimRange "3-4" 1]; g_get_all (fst a)) =
  Ok [Some (TEntry 3 16 1); Some (TEntry 4 16 1)].
Proof. vm_compute. reflexivity. Qed.
(*@ C71_tree_other_maps_partial *)
Example C71_tree_other_example :
  (do g <- g_new cfg_tree16 4; do a <- g_run (fun _ => "") cfg_tree16 g [GClaimID (MyId 3 16) 1; GClaimID (MyId 7 16) 2];
   g_get_all (fst a)) = Ok (Some <$> [TEntry 3 16 1; TEntry 7 16 2]) /\
  (forall e : tentry lref, e ∈ [TEntry 3 16 1; TEntry 7 16 2] -> te_labels e <> 3).
Proof.
  split; [vm_compute; reflexivity|]. intros e He.
  apply elem_of_cons in He as [->|He]; [done|]. by apply elem_of_list_singleton in He as ->.
Qed.
(*@ C76_equal_partial *)
Example C76_example :
  plain {[ "a" := "1"; "b" := "2" ]} /\
  equal (TEntry 5 16 {[ "a" := "1"; "b" := "2" ]}) (TEntry 5 16 {[ "b" := "2"; "a" := "1" ]}) = true /\
  equal (TEntry 5 16 {[ "a" := "1"; "b" := "2" ]}) (TEntry 5 16 {[ "a" := "1"; "b" := "3" ]}) = false.
Proof.
  split; [|split; vm_compute; reflexivity]. intros k v H.
  apply lookup_insert_Some in H as [[<- <-]|[_ H]].
  - split; [|split]; cbn; intros [E|E]; done.
  - apply lookup_singleton_Some in H as [<- <-]. split; [|split]; cbn; intros [E|E]; done.
Qed.
(*@ C76_equal_refuted *)
Example C76_refuted_example :
  equal (TEntry 5 16 {[ "a" := "1"; "b" := "2" ]}) (TEntry 5 16 {[ "a" := "1,b=2" ]}) = true /\
  String.leb (pair_string ("a", "1")) (pair_string ("b", "2")) = true.
Proof. split; vm_compute; reflexivity. Qed.
(*@ C76_string *)
Example C76_string_example :
  entry_string (TEntry 5 16 {[ "a" := "1"; "b" := "2" ]}) = "id: {5 16}, labels: a=1,b=2".
Proof. vm_compute. reflexivity. Qed.
(*@ C76_string_text *)
Example C76_text_example :
  let e := TEntry 5 16 {[ "b" := "2"; "a" := "1" ]} in
  entry_string e = "id: {5 16}, labels: a=1,b=2" /\ size (te_labels e) = 2%nat.
Proof. split; vm_compute; reflexivity. Qed.
(*@ C71_tree_labels_change_refuted *)
Example C71_tree_example :
  (do g <- g_new cfg_tree16 4; do a <- g_run (fun _ => "") cfg_tree16 g [GClaimID (MyId 3 16) 1];
   do e <- g_get (fst a) (MyId 3 16);
   Ok (snd a, te_labels (seen ex_heap e) !! "c", te_labels (seen (write ex_heap 1 "c" "d") e) !! "c")) =
  Ok ([GDone], None, Some "d").
Proof. vm_compute. reflexivity. Qed.
