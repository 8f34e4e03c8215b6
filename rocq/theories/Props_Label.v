(** Generated by tools/genprops.py from LabelFinal.v; only statements,
    each closed by the lemma of the same name with suffix _pf. *)
From Verif Require Import LabelSpec TableNSpec LabelFinal TreeSpec GTreeSpec TableNModel.
From Coq Require Strings.String.
Import Coq.Strings.String.StringSyntax.
Local Open Scope string_scope.
Local Open Scope N_scope.

(** table16/32/64: the caller changes the map it passed to Claim, and Get reports
    the change. *)
Theorem C71_table_labels_change_refuted :
  forall (c : tn_cfg) (start end_ : N) (r : tableN lref) (id : N) (p : lref) (h : lheap) (k v : string),
    c ∈ tn_packages -> start <= end_ < 2 ^ tn_w c -> tn_reachable c start end_ r ->
    start <= id <= end_ -> tn_claimed r !! id = None -> read h p !! k <> Some v ->
    exists r' e,
      tn_step r (TClaim id p) = (r', TRUnit (Ok tt)) /\ tn_step r' (TGet id) = (r', TREntry (Ok e)) /\
      seen h e = TEntry (id - start) (tn_idlen c) (read h p) /\
      seen (write h p k v) e = TEntry (id - start) (tn_idlen c) (<[k := v]> (read h p)) /\
      seen (write h p k v) e <> seen h e.
Proof. exact C71_table_labels_change_refuted_pf. Qed.
Print Assumptions C71_table_labels_change_refuted.

(** The map at reference 1 has the label a=b when id 5 is claimed with it. *)
Definition ex_heap : lheap := {[ 1 := {[ "a" := "b" ]} ]}.
Definition ex_shared : tableN lref := fst (tn_run (tn_new cfg_table16 0 9) [TClaim 5 1]).
Example C71_example :
  tn_reachable cfg_table16 0 9 (tn_new (L := lref) cfg_table16 0 9) /\
  (exists e, snd (tn_step ex_shared (TGet 5)) = TREntry (Ok e) /\
    te_labels (seen ex_heap e) !! "c" = None /\ te_labels (seen (write ex_heap 1 "c" "d") e) !! "c" = Some "d").
Proof. split; [by exists []|]. eexists. split; [vm_compute; reflexivity|]. split; vm_compute; reflexivity. Qed.

(** Maps of which the table holds no reference do not matter. *)
Theorem C71_table_other_maps_partial :
  forall (c : tn_cfg) (start end_ : N) (r : tableN lref) (p : lref) (h : lheap) (k v : string),
    c ∈ tn_packages -> start <= end_ < 2 ^ tn_w c -> tn_reachable c start end_ r ->
    (end_ - start + 1 = 2 ^ 64 -> N.of_nat (size (tn_claimed r)) < 2 ^ 64) ->
    (forall id, tn_claimed r !! id <> Some p) ->
    (forall id e, id < 2 ^ 64 -> snd (tn_step r (TGet id)) = TREntry (Ok e) -> seen (write h p k v) e = seen h e) /\
    (forall es, snd (tn_step r TGetAll) = TREntries (Ok es) -> seen (write h p k v) <$> es = seen h <$> es) /\
    (forall sel, tn_step r (TGetByLabel (selects (write h p k v) sel)) = tn_step r (TGetByLabel (selects h sel))).
Proof. exact C71_table_other_maps_partial_pf. Qed.
Print Assumptions C71_table_other_maps_partial.

Example C71_other_example :
  seen (write ex_heap 2 "c" "d") (TEntry 5 16 1) = seen ex_heap (TEntry 5 16 1) /\ tn_claimed ex_shared !! 5 = Some 1.
Proof. split; vm_compute; reflexivity. Qed.

(** tree16/32: the same with ClaimID and Update. *)
Theorem C71_tree_labels_change_refuted :
  forall (lstr : lref -> string) (c : gcfg) (n : N) (m : record lref) (g : gtree lref) o x p g' (h : lheap) (k v : string),
  c ∈ g_packages_16_32 -> g_hist any_op c n m g -> o = GClaimID x p \/ o = GUpdate x p ->
  gid_ok c x -> g_room c m o -> g_step lstr c g o = Ok (g', GDone) -> read h p !! k <> Some v ->
  exists e, g_get g' x = Ok e /\
    seen h e = TEntry (i_id x) (i_len x) (read h p) /\
    seen (write h p k v) e = TEntry (i_id x) (i_len x) (<[k := v]> (read h p)) /\
    seen (write h p k v) e <> seen h e.
Proof. exact C71_tree_labels_change_refuted_pf. Qed.
Print Assumptions C71_tree_labels_change_refuted.

Example C71_tree_example :
  (do g <- g_new cfg_tree16 4; do a <- g_run (fun _ => "") cfg_tree16 g [GClaimID (MyId 3 16) 1];
   do e <- g_get (fst a) (MyId 3 16);
   Ok (snd a, te_labels (seen ex_heap e) !! "c", te_labels (seen (write ex_heap 1 "c" "d") e) !! "c")) =
  Ok ([GDone], None, Some "d").
Proof. vm_compute. reflexivity. Qed.

(** All entries of one ClaimRange share one map: a label set through one of them
    appears in the others. *)
Theorem C71_claim_range_shares_refuted :
  forall (lstr : lref -> string) (c : gcfg) (n : N) (m : record lref) (g : gtree lref) s p a b (h : lheap) (k v : string),
  c ∈ g_packages_16_32 -> g_hist any_op c n m g -> g_room c m (GClaimRange s p) ->
  parse_range (gc_id c) s = Ok (range_from (gc_id c) a b) -> a <= b ->
  exists g' ids, g_step lstr c g (GClaimRange s p) = Ok (g', GDone) /\ is_decomposition (gw c) ids a b /\
    forall x y ex ey, x ∈ ids -> y ∈ ids -> g_get g' x = Ok ex -> g_get g' y = Ok ey ->
      te_labels (seen (write h (te_labels ex) k v) ey) !! k = Some v.
Proof. exact C71_claim_range_shares_refuted_pf. Qed.
Print Assumptions C71_claim_range_shares_refuted.

Example C71_range_example :
  (do g <- g_new cfg_tree16 4; do a <- g_run (fun _ => "") cfg_tree16 g [GClaimRange "3-4" 1]; g_get_all (fst a)) =
  Ok [Some (TEntry 3 16 1); Some (TEntry 4 16 1)].
Proof. vm_compute. reflexivity. Qed.

(** tree16/32: maps of which the tree holds no reference do not matter, and the
    results of Get, Children and Parents come from the entries GetAll lists. *)
Theorem C71_tree_other_maps_partial :
  forall (lstr : lref -> string) (c : gcfg) (n : N) (m : record lref) (g : gtree lref) (es : list (tentry lref)) (p : lref) (h : lheap) (k v : string),
  c ∈ g_packages_16_32 -> g_hist any_op c n m g -> g_get_all g = Ok (Some <$> es) ->
  (forall e, e ∈ es -> te_labels e <> p) ->
  (forall e, e ∈ es -> seen (write h p k v) e = seen h e) /\
  (forall x e, gid_ok c x -> g_get g x = Ok e -> e ∈ es) /\
  (forall x cs, gid_ok c x -> g_children c g x = Ok cs \/ g_parents c g x = Ok cs -> exists ds, cs = Some <$> ds /\ ds ⊆ es) /\
  (forall sel, g_get_by_label g (selects (write h p k v) sel) = g_get_by_label g (selects h sel)) /\
  (forall sel, g_step lstr c g (GReleaseByLabel (selects (write h p k v) sel)) =
     g_step lstr c g (GReleaseByLabel (selects h sel))).
Proof. exact C71_tree_other_maps_partial_pf. Qed.
Print Assumptions C71_tree_other_maps_partial.

Example C71_tree_other_example :
  (do g <- g_new cfg_tree16 4; do a <- g_run (fun _ => "") cfg_tree16 g [GClaimID (MyId 3 16) 1; GClaimID (MyId 7 16) 2];
   g_get_all (fst a)) = Ok (Some <$> [TEntry 3 16 1; TEntry 7 16 2]) /\
  (forall e : tentry lref, e ∈ [TEntry 3 16 1; TEntry 7 16 2] -> te_labels e <> 3).
Proof.
  split; [vm_compute; reflexivity|]. intros e He.
  apply elem_of_cons in He as [->|He]; [done|]. by apply elem_of_list_singleton in He as ->.
Qed.

(** ReleaseByLabel releases by the labels of the moment of the call. *)
Theorem C71_release_by_label_follows_the_map :
  forall (lstr : lref -> string) (c : gcfg) (n : N) (m : record lref) (g : gtree lref) es (h : lheap) (sel : labels -> bool),
  c ∈ g_packages_16_32 -> g_hist any_op c n m g -> g_room c m (GReleaseByLabel (selects h sel)) ->
  g_get_all g = Ok (Some <$> es) ->
  exists g', g_step lstr c g (GReleaseByLabel (selects h sel)) = Ok (g', GDone) /\
    g_get_all g' = Ok (Some <$> List.filter (fun e => negb (sel (te_labels (seen h e)))) es).
Proof. exact C71_release_by_label_follows_the_map_pf. Qed.
Print Assumptions C71_release_by_label_follows_the_map.

(** Two ids claimed with different maps; a label written to the first map later
    decides which of them is released. *)
Example C71_release_example :
  let h := write ex_heap 1 "c" "d" in let sel := fun l : labels => bool_decide (l !! "c" = Some "d") in
  (do g <- g_new cfg_tree16 4;
   do a <- g_run (fun _ => "") cfg_tree16 g [GClaimID (MyId 3 16) 1; GClaimID (MyId 7 16) 2; GReleaseByLabel (selects h sel)];
   g_get_all (fst a)) = Ok [Some (TEntry 7 16 2)].
Proof. vm_compute. reflexivity. Qed.

(** Equal decides equality of id, length and labels, for labels without commas
    whose keys have no equals sign. *)
Theorem C76_equal_partial : forall e1 e2 : tentry labels,
  plain (te_labels e1) -> plain (te_labels e2) -> (equal e1 e2 = true <-> e1 = e2).
Proof. exact C76_equal_partial_pf. Qed.
Print Assumptions C76_equal_partial.

Example C76_example :
  plain {[ "a" := "1"; "b" := "2" ]} /\
  equal (TEntry 5 16 {[ "a" := "1"; "b" := "2" ]}) (TEntry 5 16 {[ "b" := "2"; "a" := "1" ]}) = true /\
  equal (TEntry 5 16 {[ "a" := "1"; "b" := "2" ]}) (TEntry 5 16 {[ "a" := "1"; "b" := "3" ]}) = false.
Proof.
  split; [|split; vm_compute; reflexivity]. intros k v H.
  apply lookup_insert_Some in H as [[<- <-]|[_ H]].
  - split; [|split]; cbn; intros [E|E]; done.
  - apply lookup_singleton_Some in H as [<- <-]. split; [|split]; cbn; intros [E|E]; done.
Qed.

(** With a comma in a value different label sets are equal. *)
Theorem C76_equal_refuted : forall (i l : N) (k1 v1 k2 v2 : string),
  String.leb (pair_string (k1, v1)) (pair_string (k2, v2)) = true -> k1 <> k2 ->
  let e1 := TEntry i l {[ k1 := v1; k2 := v2 ]} in
  let e2 := TEntry i l {[ k1 := String.append v1 (String.append "," (pair_string (k2, v2))) ]} in
  equal e1 e2 = true /\ e1 <> e2.
Proof. exact C76_equal_refuted_pf. Qed.
Print Assumptions C76_equal_refuted.

Example C76_refuted_example :
  equal (TEntry 5 16 {[ "a" := "1"; "b" := "2" ]}) (TEntry 5 16 {[ "a" := "1,b=2" ]}) = true /\
  String.leb (pair_string ("a", "1")) (pair_string ("b", "2")) = true.
Proof. split; vm_compute; reflexivity. Qed.

(** String tells the entries apart that Equal tells apart, and no others. *)
Theorem C76_string : forall e1 e2 : tentry labels, entry_string e1 = entry_string e2 <-> equal e1 e2 = true.
Proof. exact C76_string_pf. Qed.
Print Assumptions C76_string.

Example C76_string_example :
  entry_string (TEntry 5 16 {[ "a" := "1"; "b" := "2" ]}) = "id: {5 16}, labels: a=1,b=2".
Proof. vm_compute. reflexivity. Qed.

(** The text: value and length in decimal, and the pairs key=value, each once, in
    the order of strings, with commas in between. *)
Theorem C76_string_text : forall e : tentry labels, exists v l ps,
  plain_decimal v (te_id e) /\ plain_decimal l (te_len e) /\
  entry_string e = String.append "id: {" (String.append v (String.append " " (String.append l
    (String.append "}, labels: " (String.concat "," ps))))) /\
  StronglySorted (fun a b => String.leb a b = true) ps /\
  (forall s, s ∈ ps <-> exists k x, te_labels e !! k = Some x /\ s = String.append k (String.append "=" x)) /\
  length ps = size (te_labels e).
Proof. exact C76_string_text_pf. Qed.
Print Assumptions C76_string_text.

Example C76_text_example :
  let e := TEntry 5 16 {[ "b" := "2"; "a" := "1" ]} in
  entry_string e = "id: {5 16}, labels: a=1,b=2" /\ size (te_labels e) = 2%nat.
Proof. split; vm_compute; reflexivity. Qed.
