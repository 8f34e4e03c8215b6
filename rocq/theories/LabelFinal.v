(** Proofs of the property statements about shared label maps. *)
From Verif Require Import LabelSpec TableNSpec TableNFinal GTreeFinal TreeSpec GTreeSpec.
From Coq Require Import Lia ZifyBool ZifyNat ZifyN.
From Verif Require Import TableNProofs TableNModel.
From Coq Require Strings.String.
Import Coq.Strings.String.StringSyntax.
Local Open Scope N_scope.

Lemma read_write h p k v : read (write h p k v) p = <[k := v]> (read h p).
Proof. unfold read at 1, write, lheap, lref. by rewrite lookup_insert. Qed.
Lemma read_write_ne h p q k v : q <> p -> read (write h p k v) q = read h q.
Proof. intros Hq. unfold read at 1, write, lheap, lref. by rewrite lookup_insert_ne. Qed.

Lemma tn_run_snoc {L} (os : list (top L)) o : forall r : tableN L,
  fst (tn_run r (os ++ [o])) = fst (tn_step (fst (tn_run r os)) o).
Proof.
  induction os as [|o1 os IH]; intros r; cbn [tn_run app].
  - cbn [fst]. by destruct (tn_step r o).
  - destruct (tn_step r o1) as [r1 x1]. specialize (IH r1).
    destruct (tn_run r1 (os ++ [o])), (tn_run r1 os). done.
Qed.

(* ------------------------------------------------------------------ C71 *)
(** table16/32/64: the caller changes the map it passed to Claim, and Get reports
    the change. *)
Lemma C71_table_labels_change_refuted_pf :
  forall (c : tn_cfg) (start end_ : N) (r : tableN lref) (id : N) (p : lref) (h : lheap) (k v : string),
    c ∈ tn_packages -> start <= end_ < 2 ^ tn_w c -> tn_reachable c start end_ r ->
    start <= id <= end_ -> tn_claimed r !! id = None -> read h p !! k <> Some v ->
    exists r' e,
      tn_step r (TClaim id p) = (r', TRUnit (Ok tt)) /\ tn_step r' (TGet id) = (r', TREntry (Ok e)) /\
      seen h e = TEntry (id - start) (tn_idlen c) (read h p) /\
      seen (write h p k v) e = TEntry (id - start) (tn_idlen c) (<[k := v]> (read h p)) /\
      seen (write h p k v) e <> seen h e.
Proof.
  intros c a b r id p h k v Hc Hab Hr Hid Hn Hk.
  assert (Hid64 : id < 2 ^ 64) by (apply tn_packages_good in Hc as (_ & Hw & _); lia).
  destruct (C12_tableN_is_a_map_over_the_interval_pf lref c a b r [TClaim id p] Hc Hab Hr) as [H1 H2]; [done|cbn; lia|].
  cbn [tn_run tn_spec_run tn_spec] in H1, H2. rewrite Hn in H1, H2.
  destruct (N.leb_spec a id), (N.leb_spec id b); try lia. cbn [andb fst snd] in H1, H2.
  destruct (tn_step r (TClaim id p)) as [r' x] eqn:Hs. cbn [fst snd] in H1, H2. injection H1 as ->.
  assert (Hr' : tn_reachable c a b r').
  { destruct Hr as (os & Ho & <-). exists (os ++ [TClaim id p]). split.
    - rewrite forallb_app, Ho. cbn. lia.
    - rewrite tn_run_snoc, Hs. done. }
  pose proof (C12_get_reports_the_labels_pf lref c a b r' id Hc Hab Hr' Hid64) as Hget.
  rewrite H2, lookup_insert in Hget. destruct Hget as (e & Hget & He).
  destruct (C15_get_returns_the_offset_pf lref c a b r' id e Hc Hab Hr' Hid64 Hget) as (Hi & Hl & _).
  exists r', e. split; [done|]. split; [by rewrite <- Hget|]. destruct e as [x y z]. cbn [te_id te_len te_labels] in *. subst x y z.
  unfold seen. cbn [te_id te_len te_labels]. rewrite read_write.
  split; [done|]. split; [done|]. intros E. injection E as E. apply Hk. rewrite <- E. apply lookup_insert.
Qed.

(** Maps of which the table holds no reference do not matter. *)
Lemma C71_table_other_maps_partial_pf :
  forall (c : tn_cfg) (start end_ : N) (r : tableN lref) (p : lref) (h : lheap) (k v : string),
    c ∈ tn_packages -> start <= end_ < 2 ^ tn_w c -> tn_reachable c start end_ r ->
    (end_ - start + 1 = 2 ^ 64 -> N.of_nat (size (tn_claimed r)) < 2 ^ 64) ->
    (forall id, tn_claimed r !! id <> Some p) ->
    (forall id e, id < 2 ^ 64 -> snd (tn_step r (TGet id)) = TREntry (Ok e) -> seen (write h p k v) e = seen h e) /\
    (forall es, snd (tn_step r TGetAll) = TREntries (Ok es) -> seen (write h p k v) <$> es = seen h <$> es) /\
    (forall sel, tn_step r (TGetByLabel (selects (write h p k v) sel)) = tn_step r (TGetByLabel (selects h sel))).
Proof.
  intros c a b r p h k v Hc Hab Hr H64 Hp.
  assert (Hseen : forall q e, q <> p -> te_labels e = q -> seen (write h p k v) e = seen h e).
  { intros q e Hq He. unfold seen. rewrite read_write_ne; [done|]. by rewrite He. }
  split; [|split].
  - intros id e Hid Hget.
    destruct (C15_get_returns_the_offset_pf lref c a b r id e Hc Hab Hr Hid Hget) as (_ & _ & Hcl).
    apply (Hseen (te_labels e)); [|done]. intros E. apply (Hp id). by rewrite Hcl, E.
  - intros es Hes. destruct (C14_get_all_reports_external_ids_pf lref c a b r (fun _ => true) Hc Hab Hr H64)
      as (es' & Hall & _ & Hin & Hlen & _).
    rewrite Hall in Hes. cbn [snd] in Hes. injection Hes as ->. apply list_fmap_ext. intros i e He.
    apply elem_of_list_lookup_2 in He. apply (Hseen (te_labels e)); [|done]. intros E. apply (Hp (te_id e)).
    apply Hin. pose proof (Hlen e He) as Hl. destruct e as [x y z]. cbn in *. by subst.
  - intros sel. destruct (C14_get_all_reports_external_ids_pf lref c a b r (selects (write h p k v) sel) Hc Hab Hr H64)
      as (es1 & Hall1 & _ & Hin & Hlen & ->).
    destruct (C14_get_all_reports_external_ids_pf lref c a b r (selects h sel) Hc Hab Hr H64)
      as (es2 & Hall2 & _ & _ & _ & ->).
    rewrite Hall1 in Hall2. injection Hall2 as <-. do 3 f_equal.
    assert (Hf : forall es, (forall e, e ∈ es -> te_labels e <> p) ->
      List.filter (fun e => selects (write h p k v) sel (te_labels e)) es =
      List.filter (fun e => selects h sel (te_labels e)) es).
    { induction es as [|e es IH]; intros Hne; [done|]. cbn [List.filter].
      rewrite IH by (intros e' He'; apply Hne; by right).
      unfold selects at 1 2. rewrite read_write_ne; [done|]. apply Hne. left. }
    apply Hf. intros e He E. apply (Hp (te_id e)). apply Hin.
    pose proof (Hlen e He) as Hl. destruct e as [x y z]. cbn in *. by subst.
Qed.

(** tree16/32: the same with ClaimID and Update. *)
Lemma C71_tree_labels_change_refuted_pf :
  forall (lstr : lref -> string) (c : gcfg) (n : N) (m : record lref) (g : gtree lref) o x p g' (h : lheap) (k v : string),
  c ∈ g_packages_16_32 -> g_hist any_op c n m g -> o = GClaimID x p \/ o = GUpdate x p ->
  gid_ok c x -> g_room c m o -> g_step lstr c g o = Ok (g', GDone) -> read h p !! k <> Some v ->
  exists e, g_get g' x = Ok e /\
    seen h e = TEntry (i_id x) (i_len x) (read h p) /\
    seen (write h p k v) e = TEntry (i_id x) (i_len x) (<[k := v]> (read h p)) /\
    seen (write h p k v) e <> seen h e.
Proof.
  intros lstr c n m g o x p g' h k v Hc Hh Ho Hx Hr Hs Hk.
  exists (TEntry (i_id x) (i_len x) p).
  split; [by apply (C37_claim_then_get_partial_pf lref lstr c n m g o x p g')|].
  unfold seen. cbn [te_id te_len te_labels]. rewrite read_write. split; [done|]. split; [done|].
  intros E. injection E as E. apply Hk. rewrite <- E. apply lookup_insert.
Qed.

(** All entries of one ClaimRange share one map: a label set through one of them
    appears in the others. *)
Lemma C71_claim_range_shares_refuted_pf :
  forall (lstr : lref -> string) (c : gcfg) (n : N) (m : record lref) (g : gtree lref) s p a b (h : lheap) (k v : string),
  c ∈ g_packages_16_32 -> g_hist any_op c n m g -> g_room c m (GClaimRange s p) ->
  parse_range (gc_id c) s = Ok (range_from (gc_id c) a b) -> a <= b ->
  exists g' ids, g_step lstr c g (GClaimRange s p) = Ok (g', GDone) /\ is_decomposition (gw c) ids a b /\
    forall x y ex ey, x ∈ ids -> y ∈ ids -> g_get g' x = Ok ex -> g_get g' y = Ok ey ->
      te_labels (seen (write h (te_labels ex) k v) ey) !! k = Some v.
Proof.
  intros lstr c n m g s p a b h k v Hc Hh Hr Hp Hab.
  destruct (C49_claim_range_partial_pf lref lstr c n m g s p a b Hc Hh Hr Hp Hab) as (g' & ids & Hs & Hd & Hg & _).
  exists g', ids. split; [done|]. split; [done|]. intros x y ex ey Hx Hy Hgx Hgy.
  rewrite (Hg x Hx) in Hgx. rewrite (Hg y Hy) in Hgy. injection Hgx as <-. injection Hgy as <-.
  cbn [seen te_labels]. rewrite read_write. apply lookup_insert.
Qed.

(** Maps of which the tree holds no reference do not matter. *)
Lemma filter_other_maps h p k v sel (es : list (tentry lref)) : (forall e, e ∈ es -> te_labels e <> p) ->
  List.filter (fun e => selects (write h p k v) sel (te_labels e)) es =
  List.filter (fun e => selects h sel (te_labels e)) es.
Proof.
  induction es as [|e es IH]; intros Hne; [done|]. cbn [List.filter].
  rewrite IH by (intros e' He'; apply Hne; by right).
  unfold selects at 1 2. rewrite read_write_ne; [done|]. apply Hne. left.
Qed.
(** tree16/32: maps of which the tree holds no reference do not matter, and the
    results of Get, Children and Parents come from the entries GetAll lists. *)
Lemma C71_tree_other_maps_partial_pf :
  forall (lstr : lref -> string) (c : gcfg) (n : N) (m : record lref) (g : gtree lref) (es : list (tentry lref)) (p : lref) (h : lheap) (k v : string),
  c ∈ g_packages_16_32 -> g_hist any_op c n m g -> g_get_all g = Ok (Some <$> es) ->
  (forall e, e ∈ es -> te_labels e <> p) ->
  (forall e, e ∈ es -> seen (write h p k v) e = seen h e) /\
  (forall x e, gid_ok c x -> g_get g x = Ok e -> e ∈ es) /\
  (forall x cs, gid_ok c x -> g_children c g x = Ok cs \/ g_parents c g x = Ok cs -> exists ds, cs = Some <$> ds /\ ds ⊆ es) /\
  (forall sel, g_get_by_label g (selects (write h p k v) sel) = g_get_by_label g (selects h sel)) /\
  (forall sel, g_step lstr c g (GReleaseByLabel (selects (write h p k v) sel)) =
     g_step lstr c g (GReleaseByLabel (selects h sel))).
Proof.
  intros lstr c n m g es p h k v Hc Hh Hes Hp.
  destruct (C42_listings_partial_pf lref any_op c n m g Hc Hh) as (es' & Hall & _ & _ & Hget & _ & Hlab).
  rewrite Hall in Hes. injection Hes as Hes. apply (inj (fmap Some)) in Hes. subst es'.
  assert (Hsel : forall sel, g_get_by_label g (selects (write h p k v) sel) = g_get_by_label g (selects h sel)).
  { intros sel. by rewrite !Hlab, filter_other_maps. }
  split; [|split; [|split; [|split]]].
  - intros e He. unfold seen. by rewrite read_write_ne by (by apply Hp).
  - intros x e Hx He. by apply (Hget x e Hx) in He as [He _].
  - intros x cs Hx [Hcs|Hcs].
    + rewrite (C43_children_partial_pf lref any_op c n m g x es Hc Hh Hx Hall) in Hcs. injection Hcs as <-.
      eexists. split; [done|]. intros e He. apply elem_of_list_In, filter_In in He as [He _]. by apply elem_of_list_In.
    + rewrite (C44_parents_characterised_pf lref any_op c n m g x es Hc Hh Hx Hall) in Hcs. injection Hcs as <-.
      eexists. split; [done|]. intros e He. apply elem_of_list_In, filter_In in He as [He _]. by apply elem_of_list_In.
  - done.
  - intros sel. unfold g_step, g_release_by_label. by rewrite Hsel.
Qed.

(** ReleaseByLabel releases by the labels of the moment of the call. *)
Lemma C71_release_by_label_follows_the_map_pf :
  forall (lstr : lref -> string) (c : gcfg) (n : N) (m : record lref) (g : gtree lref) es (h : lheap) (sel : labels -> bool),
  c ∈ g_packages_16_32 -> g_hist any_op c n m g -> g_room c m (GReleaseByLabel (selects h sel)) ->
  g_get_all g = Ok (Some <$> es) ->
  exists g', g_step lstr c g (GReleaseByLabel (selects h sel)) = Ok (g', GDone) /\
    g_get_all g' = Ok (Some <$> List.filter (fun e => negb (sel (te_labels (seen h e)))) es).
Proof.
  intros lstr c n m g es h sel Hc Hh Hr Hes.
  destruct (C41_release_by_label_partial_pf lref lstr c n m g (selects h sel) es Hc Hh Hr Hes) as (g' & H1 & H2 & _).
  by exists g'.
Qed.

(* ------------------------------------------------------------------ C76 *)
From Verif Require Import IdSpec IdFinal.
Local Arguments String.append !_ _ / : simpl nomatch.
Lemma append_inj (p a b : string) : String.append p a = String.append p b -> a = b.
Proof. induction p as [|c p IH]; [done|]. cbn. intros [= H]. by apply IH. Qed.
Lemma split_at_char (ch : ascii) : forall a b x y : string,
  ~ occurs ch a -> ~ occurs ch b ->
  String.append a (String.String ch x) = String.append b (String.String ch y) -> a = b /\ x = y.
Proof.
  induction a as [|d a IH]; intros [|e b] x y Ha Hb H; cbn in H.
  - by injection H as ->.
  - injection H as -> _. exfalso. apply Hb. by left.
  - injection H as -> _. exfalso. apply Ha. by left.
  - injection H as -> H. destruct (IH b x y) as [-> ->]; [..|done].
    + intros E. apply Ha. by right.
    + intros E. apply Hb. by right.
    + done.
Qed.
Lemma occurs_append ch a b : occurs ch (String.append a b) <-> occurs ch a \/ occurs ch b.
Proof. induction a as [|d a IH]; cbn; [tauto|]. rewrite IH. tauto. Qed.
Lemma concat_inj : forall l1 l2 : list string,
  Forall (fun s => s <> String.EmptyString /\ ~ occurs "," s) l1 ->
  Forall (fun s => s <> String.EmptyString /\ ~ occurs "," s) l2 ->
  String.concat "," l1 = String.concat "," l2 -> l1 = l2.
Proof.
  assert (Hne : forall s l, s <> String.EmptyString -> String.concat "," (s :: l) <> String.EmptyString).
  { intros s l Hs. cbn. destruct l; [done|]. by destruct s. }
  induction l1 as [|s l1 IH]; intros [|t l2] H1 H2 H.
  - done.
  - exfalso. apply Forall_cons in H2 as [[Ht _] _]. by eapply Hne.
  - exfalso. apply Forall_cons in H1 as [[Hs _] _]. by eapply Hne.
  - apply Forall_cons in H1 as [[Hs Hsc] H1]. apply Forall_cons in H2 as [[Ht Htc] H2].
    destruct l1 as [|s1 l1], l2 as [|t1 l2].
    + cbn in H. by subst.
    + exfalso. cbn in H. apply Hsc. rewrite H. apply occurs_append. right. by left.
    + exfalso. cbn in H. apply Htc. rewrite <- H. apply occurs_append. right. by left.
    + change (String.append s (String.String "," (String.concat "," (s1 :: l1))) =
              String.append t (String.String "," (String.concat "," (t1 :: l2)))) in H.
      apply split_at_char in H as [-> H]; [|done..]. f_equal. by apply IH.
Qed.

Lemma label_string_inj m1 m2 : plain m1 -> plain m2 -> label_string m1 = label_string m2 -> m1 = m2.
Proof.
  intros H1 H2 H. unfold label_string in H. apply concat_inj in H.
  - assert (Hp : map pair_string (map_to_list m1) ≡ₚ map pair_string (map_to_list m2)).
    { rewrite <- (merge_sort_Permutation (fun a b => Is_true (String.leb a b)) (map pair_string (map_to_list m1))), H.
      apply merge_sort_Permutation. }
    clear H. apply map_eq. intros k. apply option_eq. intros v. rewrite <- !elem_of_map_to_list.
    assert (Hdir : forall ma mb, plain ma -> plain mb -> map pair_string (map_to_list ma) ≡ₚ map pair_string (map_to_list mb) ->
      (k, v) ∈ map_to_list ma -> (k, v) ∈ map_to_list mb).
    { clear. intros ma mb Ha Hb Hp Hin.
      assert (Hin' : pair_string (k, v) ∈ map pair_string (map_to_list mb)).
      { rewrite <- Hp. by apply elem_of_list_fmap_1. }
      apply elem_of_list_fmap in Hin' as ([k' v'] & He & Hin'). unfold pair_string in He. cbn [fst snd] in He.
      pose proof Hin as Hin0. apply elem_of_map_to_list in Hin0. pose proof Hin' as Hin1. apply elem_of_map_to_list in Hin1.
      apply Ha in Hin0 as (Hk & _). apply Hb in Hin1 as (Hk' & _).
      apply split_at_char in He as [-> ->]; done. }
    split; apply Hdir; try done.
  - rewrite Forall_forall. intros s. rewrite merge_sort_Permutation. intros Hs.
    apply elem_of_list_fmap in Hs as ([k v] & -> & Hin). apply elem_of_map_to_list in Hin. apply H1 in Hin as (_ & Hk & Hv).
    unfold pair_string. cbn [fst snd]. split; [by destruct k|]. rewrite occurs_append. cbn [occurs]. intros [?|[?|?]]; done.
  - rewrite Forall_forall. intros s. rewrite merge_sort_Permutation. intros Hs.
    apply elem_of_list_fmap in Hs as ([k v] & -> & Hin). apply elem_of_map_to_list in Hin. apply H2 in Hin as (_ & Hk & Hv).
    unfold pair_string. cbn [fst snd]. split; [by destruct k|]. rewrite occurs_append. cbn [occurs]. intros [?|[?|?]]; done.
Qed.

(** Equal decides equality of id, length and labels, for labels without commas
    whose keys have no equals sign. *)
Lemma C76_equal_partial_pf : forall e1 e2 : tentry labels,
  plain (te_labels e1) -> plain (te_labels e2) -> (equal e1 e2 = true <-> e1 = e2).
Proof.
  intros [i1 l1 m1] [i2 l2 m2] H1 H2. cbn [te_labels] in *. unfold equal, entry_equal. cbn [te_id te_len te_labels].
  rewrite !andb_true_iff, !N.eqb_eq, String.eqb_eq. split.
  - intros [[-> ->] H]. by rewrite (label_string_inj m1 m2).
  - by intros [= -> -> ->].
Qed.

(** With a comma in a value different label sets are equal. *)
Lemma C76_equal_refuted_pf : forall (i l : N) (k1 v1 k2 v2 : string),
  String.leb (pair_string (k1, v1)) (pair_string (k2, v2)) = true -> k1 <> k2 ->
  let e1 := TEntry i l {[ k1 := v1; k2 := v2 ]} in
  let e2 := TEntry i l {[ k1 := String.append v1 (String.append "," (pair_string (k2, v2))) ]} in
  equal e1 e2 = true /\ e1 <> e2.
Proof.
  intros i l k1 v1 k2 v2 Hle Hk. cbn zeta. split.
  - unfold equal, entry_equal. cbn [te_id te_len te_labels]. rewrite !N.eqb_refl. cbn [andb].
    apply String.eqb_eq. unfold label_string.
    assert (Hone : forall k v, map_to_list ({[ k := v ]} : labels) = [(k, v)]) by (intros; apply (map_to_list_singleton (M := gmap string))).
    rewrite Hone.
    set (R := fun a b => Is_true (String.leb a b)).
    assert (Hs : merge_sort R (map pair_string (map_to_list ({[ k1 := v1; k2 := v2 ]} : labels))) =
                 [pair_string (k1, v1); pair_string (k2, v2)]).
    { assert (Hp : merge_sort R (map pair_string (map_to_list ({[ k1 := v1; k2 := v2 ]} : labels))) ≡ₚ
                   [pair_string (k1, v1); pair_string (k2, v2)]).
      { rewrite merge_sort_Permutation. 
        etrans; [apply fmap_Permutation, (map_to_list_insert (M := gmap string)); by apply lookup_singleton_ne|].
        cbn. by rewrite Hone.
 }
      symmetry in Hp. apply Permutation_length_2_inv in Hp as [->|Hp]; [done|].
      assert (Ht : Total R).
      { intros x y. unfold R. destruct (String.leb_total x y) as [E|E]; rewrite E; [by left|by right]. }
      pose proof (Sorted_merge_sort R (map pair_string (map_to_list ({[ k1 := v1; k2 := v2 ]} : labels)))) as Hso.
      rewrite Hp in Hso |- *. inversion Hso as [|? ? _ Hh]. subst. inversion Hh as [|? ? Hle2]. subst.
      unfold R in Hle2. apply Is_true_eq_true in Hle2. by rewrite (String.leb_antisym _ _ Hle Hle2). }
    rewrite Hs. cbn [map]. unfold pair_string. cbn [fst snd]. clear.
    induction k1 as [|a k1 IH]; [|exact (f_equal (String.String a) IH)].
    change (String.String "=" (String.append v1 (String.append "," (pair_string (k2, v2)))) =
            String.String "=" (String.append v1 (String.append "," (pair_string (k2, v2))))). done.
  - intros H. apply (f_equal te_labels) in H. cbn [te_labels] in H.
    assert (H2 : ({[ k1 := v1; k2 := v2 ]} : gmap string string) !! k2 = Some v2).
    { rewrite lookup_insert_ne by done. apply lookup_singleton. }
    unfold labels in H. rewrite H, lookup_singleton_ne in H2 by done. done.
Qed.

(** String tells the entries apart that Equal tells apart, and no others. *)
Lemma C76_string_pf : forall e1 e2 : tentry labels, entry_string e1 = entry_string e2 <-> equal e1 e2 = true.
Proof.
  intros [i1 l1 m1] [i2 l2 m2]. unfold entry_string, equal, entry_equal. cbn [te_id te_len te_labels].
  rewrite !andb_true_iff, !N.eqb_eq, String.eqb_eq. split.
  - intros H. apply append_inj in H. cbn in H.
    assert (Hd : forall a : N, all_digits (dec a)) by (intros a; apply dec_spec).
    assert (Hinj : forall a b : N, dec a = dec b -> a = b).
    { intros a b E. destruct (dec_spec a) as (_ & _ & <-), (dec_spec b) as (_ & _ & <-). by rewrite E. }
    apply digits_split in H as [E1 H]; [|apply Hd|apply Hd|by vm_compute; intros [F _]; apply F..].
    apply digits_split in H as [E2 H]; [|apply Hd|apply Hd|by vm_compute; intros [_ F]; apply F..].
    apply Hinj in E1, E2. subst. split; [done|]. by injection H.
  - intros [[-> ->] ->]. done.
Qed.

Lemma leb_trans (x y z : string) : String.leb x y = true -> String.leb y z = true -> String.leb x z = true.
Proof.
  revert y z. unfold String.leb. induction x as [|a x IH]; intros [|b y] [|c z]; cbn [String.compare]; try done.
  unfold Ascii.compare. intros H1 H2.
  destruct (N.compare_spec (N_of_ascii a) (N_of_ascii b)) as [Hab|Hab|Hab]; try done;
    destruct (N.compare_spec (N_of_ascii b) (N_of_ascii c)) as [Hbc|Hbc|Hbc]; try done;
    destruct (N.compare_spec (N_of_ascii a) (N_of_ascii c)) as [Hac|Hac|Hac]; try done; try lia.
  by apply (IH y z).
Qed.
(** The text: value and length in decimal, and the pairs key=value, each once, in
    the order of strings, with commas in between. *)
Lemma C76_string_text_pf : forall e : tentry labels, exists v l ps,
  plain_decimal v (te_id e) /\ plain_decimal l (te_len e) /\
  entry_string e = String.append "id: {" (String.append v (String.append " " (String.append l
    (String.append "}, labels: " (String.concat "," ps))))) /\
  StronglySorted (fun a b => String.leb a b = true) ps /\
  (forall s, s ∈ ps <-> exists k x, te_labels e !! k = Some x /\ s = String.append k (String.append "=" x)) /\
  length ps = size (te_labels e).
Proof.
  intros e. set (R := fun a b => Is_true (String.leb a b)).
  exists (dec (te_id e)), (dec (te_len e)), (merge_sort R (map pair_string (map_to_list (te_labels e)))).
  split_and!; try apply dec_plain; try done.
  - assert (Ht : Total R).
    { intros x y. unfold R. destruct (String.leb_total x y) as [E|E]; rewrite E; [by left|by right]. }
    assert (Htr : Transitive R).
    { intros x y z. unfold R. rewrite !Is_true_true. apply leb_trans. }
    pose proof (StronglySorted_merge_sort R (map pair_string (map_to_list (te_labels e)))) as Hs.
    induction Hs as [|a l Hs IH Hl]; constructor; [exact IH|].
    eapply Forall_impl; [exact Hl|]. intros x. unfold R. apply Is_true_true.
  - intros s. rewrite merge_sort_Permutation. split.
    + intros Hs. apply elem_of_list_fmap in Hs as ([k x] & -> & Hin). apply elem_of_map_to_list in Hin. by exists k, x.
    + intros (k & x & Hin & ->). apply elem_of_list_fmap. exists (k, x). split; [done|]. by apply elem_of_map_to_list.
  - rewrite merge_sort_Permutation. rewrite map_length. done.
Qed.
