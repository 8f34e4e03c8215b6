(** Generated by tools/genprops.py from GTreeFinal.v; only statements,
    each closed by the lemma of the same name with suffix _pf. *)
From Verif Require Import GTreeSpec GTreeFinal TreeSpec GTreeSpec.
From Coq Require Strings.String.
Import Coq.Strings.String.StringSyntax.
Local Open Scope string_scope.
Local Open Scope N_scope.

(** tree16 and tree32: Get, after any history, in terms of the record of it. *)
Theorem C37_get_partial : forall (L : Type) (P : gop L -> Prop) (c : gcfg) (n : N) (m : record L) (g : gtree L) x,
  c ∈ g_packages_16_32 -> g_hist P c n m g -> gid_ok c x ->
  g_get g x = match lookup_id c m x with Some e => Ok e | None => Err ENotFound end.
Proof. exact C37_get_partial_pf. Qed.
Print Assumptions C37_get_partial.

Definition G_start (c : gcfg) (n : N) : gtree N := GTree (tree_zero (gc_id c)) (usub (gw c) (ushl (gw c) 1 n) 1) n.
Definition G_ops : list (gop N) :=
  [GClaimID (MyId 3 16) 1; GClaimID (MyId 8 14) 2; GUpdate (MyId 3 16) 5; GClaimFree 3; GClaimID (MyId 8 15) 4;
   GClaimID (MyId 12 16) 5; GReleaseID (MyId 12 16); GClaimID (MyId 16 16) 7].
Definition G_ops32 : list (gop N) :=
  [GClaimID (MyId 3 32) 1; GClaimID (MyId 256 24) 2; GClaimFree 3; GUpdate (MyId 256 24) 4; GReleaseByLabel (N.eqb 1)].
Lemma G_hist16 : exists g rs, g_run dec cfg_tree16 (G_start cfg_tree16 4) G_ops = Ok (g, rs) /\
  g_hist no_range cfg_tree16 4 (after_all cfg_tree16 ∅ G_ops rs) g.
Proof.
  apply (C59_runs_return_partial_pf N); [left|vm_compute; reflexivity| | |by left];
    repeat constructor; vm_compute; done.
Qed.
Lemma G_hist32 : exists g rs, g_run dec cfg_tree32 (G_start cfg_tree32 16) G_ops32 = Ok (g, rs) /\
  g_hist any_op cfg_tree32 16 (after_all cfg_tree32 ∅ G_ops32 rs) g.
Proof.
  apply (C59_runs_return_partial_pf N); [right; left|vm_compute; reflexivity| | |right; vm_compute; discriminate];
    repeat constructor; vm_compute; done.
Qed.
Example C37_example : exists g rs, g_run dec cfg_tree16 (G_start cfg_tree16 4) G_ops = Ok (g, rs) /\
  g_hist no_range cfg_tree16 4 (after_all cfg_tree16 ∅ G_ops rs) g /\
  rs = [GDone; GDone; GDone; GEntry (TEntry 2 16 3); GDone; GDone; GDone; GErr EMaxId] /\
  g_get g (MyId 3 16) = Ok (TEntry 3 16 5) /\ g_get g (MyId 12 16) = Err ENotFound.
Proof.
  destruct G_hist16 as (g & rs & Hr & Hh). exists g, rs. split; [done|]. split; [done|]. clear Hh.
  assert (H : (do a <- g_run dec cfg_tree16 (G_start cfg_tree16 4) G_ops;
    Ok (snd a, g_get (fst a) (MyId 3 16), g_get (fst a) (MyId 12 16))) =
    Ok ([GDone; GDone; GDone; GEntry (TEntry 2 16 3); GDone; GDone; GDone; GErr EMaxId], Ok (TEntry 3 16 5), Err ENotFound))
    by (vm_compute; reflexivity).
  rewrite Hr in H. cbn [rbind fst snd] in H. clear Hr. injection H as -> -> ->. repeat split; reflexivity.
Qed.
Example C37_example32 : exists g rs, g_run dec cfg_tree32 (G_start cfg_tree32 16) G_ops32 = Ok (g, rs) /\
  g_hist any_op cfg_tree32 16 (after_all cfg_tree32 ∅ G_ops32 rs) g /\
  rs = [GDone; GDone; GEntry (TEntry 2 32 3); GDone; GDone] /\
  g_get g (MyId 3 32) = Err ENotFound /\ g_get g (MyId 256 24) = Ok (TEntry 256 24 4).
Proof.
  destruct G_hist32 as (g & rs & Hr & Hh). exists g, rs. split; [done|]. split; [done|]. clear Hh.
  assert (H : (do a <- g_run dec cfg_tree32 (G_start cfg_tree32 16) G_ops32;
    Ok (snd a, g_get (fst a) (MyId 3 32), g_get (fst a) (MyId 256 24))) =
    Ok ([GDone; GDone; GEntry (TEntry 2 32 3); GDone; GDone], Err ENotFound, Ok (TEntry 256 24 4)))
    by (vm_compute; reflexivity).
  rewrite Hr in H. cbn [rbind fst snd] in H. clear Hr. injection H as -> -> ->. repeat split; reflexivity.
Qed.

(** A claim or update that succeeds is what Get returns next. *)
Theorem C37_claim_then_get_partial : forall (L : Type) (lstr : L -> string) (c : gcfg) (n : N) (m : record L) (g : gtree L) o x l g',
  c ∈ g_packages_16_32 -> g_hist any_op c n m g -> o = GClaimID x l \/ o = GUpdate x l ->
  gid_ok c x -> g_room c m o -> g_step lstr c g o = Ok (g', GDone) ->
  g_get g' x = Ok (TEntry (i_id x) (i_len x) l).
Proof. exact C37_claim_then_get_partial_pf. Qed.
Print Assumptions C37_claim_then_get_partial.

Example C37_claim_example : gid_ok cfg_tree16 (MyId 8 13) /\
  (do a <- g_run dec cfg_tree16 (G_start cfg_tree16 4) G_ops; do b <- g_step dec cfg_tree16 (fst a) (GClaimID (MyId 8 13) 9);
   do d <- g_step dec cfg_tree16 (fst b) (GUpdate (MyId 8 14) 6);
   Ok (snd b, g_get (fst b) (MyId 8 13), snd d, g_get (fst d) (MyId 8 14), g_get (fst d) (MyId 8 13))) =
  Ok (GDone, Ok (TEntry 8 13 9), GDone, Ok (TEntry 8 14 6), Ok (TEntry 8 13 9)).
Proof. split; [by vm_compute|vm_compute; reflexivity]. Qed.

(** Calls on other prefixes do not change what Get returns. *)
Theorem C37_other_prefixes_partial : forall (L : Type) (lstr : L -> string) (c : gcfg) (n : N) (m : record L) (g : gtree L) o g' r y,
  c ∈ g_packages_16_32 -> g_hist any_op c n m g -> gop_ok c o -> g_room c m o ->
  g_step lstr c g o = Ok (g', r) -> gid_ok c y -> ~ touches c m o r (prefix (gw c) y) ->
  g_get g' y = g_get g y.
Proof. exact C37_other_prefixes_partial_pf. Qed.
Print Assumptions C37_other_prefixes_partial.

Example C37_other_example : ~ touches cfg_tree16 (∅ : record N) (GClaimID (MyId 8 14) 2) GDone (prefix 16 (MyId 8 15)).
Proof. vm_compute. discriminate. Qed.

(** tree64: a claim of another prefix makes Get of the first one fail. *)
Theorem C37_tree64_refuted :
  exists g1 g2,
    (do g <- g_new (L := N) cfg_tree64 64; g_step dec cfg_tree64 g (GClaimID (MyId 0 1) 1)) = Ok (g1, GDone) /\
    g_get g1 (MyId 0 1) = Ok (TEntry 0 1 1) /\
    g_step dec cfg_tree64 g1 (GClaimID (MyId (2 ^ 63) 1) 2) = Ok (g2, GDone) /\
    g_get g2 (MyId 0 1) = Err ENotFound.
Proof. exact C37_tree64_refuted_pf. Qed.
Print Assumptions C37_tree64_refuted.

(** False in every reachable tree: ClaimID of a claimed id succeeds and replaces
    the entry. *)
Theorem C38_claim_of_claimed_refuted : forall (L : Type) (lstr : L -> string) (c : gcfg) (n : N) (m : record L) (g : gtree L) x e l,
  c ∈ g_packages_16_32 -> g_hist any_op c n m g -> gid_ok c x -> i_id x < 2 ^ n ->
  g_room c m (GClaimID x l) -> g_get g x = Ok e ->
  exists g', g_step lstr c g (GClaimID x l) = Ok (g', GDone) /\ g_get g' x = Ok (TEntry (i_id x) (i_len x) l).
Proof. exact C38_claim_of_claimed_refuted_pf. Qed.
Print Assumptions C38_claim_of_claimed_refuted.

Example C38_example : (do a <- g_run dec cfg_tree16 (G_start cfg_tree16 4) G_ops; do b <- g_step dec cfg_tree16 (fst a) (GClaimID (MyId 8 14) 11);
   Ok (g_get (fst a) (MyId 8 14), snd b, g_get (fst b) (MyId 8 14))) = Ok (Ok (TEntry 8 14 2), GDone, Ok (TEntry 8 14 11)).
Proof. vm_compute. reflexivity. Qed.

Theorem C39_ids_stay_inside_partial : forall (L : Type) (c : gcfg) (n : N) (m : record L) (g : gtree L) es,
  c ∈ g_packages_16_32 -> g_hist no_range c n m g -> g_get_all g = Ok (Some <$> es) ->
  Forall (fun e => te_id e < 2 ^ n) es.
Proof. exact C39_ids_stay_inside_partial_pf. Qed.
Print Assumptions C39_ids_stay_inside_partial.

Example C39_example : exists g rs es, g_run dec cfg_tree16 (G_start cfg_tree16 4) G_ops = Ok (g, rs) /\
  g_hist no_range cfg_tree16 4 (after_all cfg_tree16 ∅ G_ops rs) g /\
  g_get_all g = Ok (Some <$> es) /\ map te_id es = [2; 3; 8; 8].
Proof.
  destruct G_hist16 as (g & rs & Hr & Hh). exists g, rs, [TEntry 2 16 3; TEntry 3 16 5; TEntry 8 14 2; TEntry 8 15 4].
  split; [done|]. split; [done|]. split; [|reflexivity]. clear Hh.
  assert (H : (do a <- g_run dec cfg_tree16 (G_start cfg_tree16 4) G_ops; g_get_all (fst a)) =
    Ok (Some <$> [TEntry 2 16 3; TEntry 3 16 5; TEntry 8 14 2; TEntry 8 15 4])) by (vm_compute; reflexivity).
  by rewrite Hr in H.
Qed.

(** An id above the size is refused and the tree is unchanged. *)
Theorem C39_claims_above_refused_partial : forall (L : Type) (lstr : L -> string) (c : gcfg) (n : N) (m : record L) (g : gtree L) x l,
  c ∈ g_packages_16_32 -> g_hist any_op c n m g -> gid_ok c x -> 2 ^ n <= i_id x ->
  g_step lstr c g (GClaimID x l) = Ok (g, GErr EMaxId) /\ g_step lstr c g (GUpdate x l) = Ok (g, GErr EMaxId).
Proof. exact C39_claims_above_refused_partial_pf. Qed.
Print Assumptions C39_claims_above_refused_partial.

Example C39_above_example : gid_ok cfg_tree16 (MyId 16 16) /\ 2 ^ 4 <= i_id (MyId 16 16) /\
  (do a <- g_run dec cfg_tree16 (G_start cfg_tree16 4) G_ops; do b <- g_step dec cfg_tree16 (fst a) (GClaimID (MyId 16 16) 9);
   do d <- g_step dec cfg_tree16 (fst b) (GUpdate (MyId 16 12) 9); do f <- g_step dec cfg_tree16 (fst d) (GClaimID (MyId 15 16) 9);
   Ok [snd b; snd d; snd f]) = Ok [GErr EMaxId; GErr EMaxId; GDone].
Proof. split; [by vm_compute|]. split; [by vm_compute|vm_compute; reflexivity]. Qed.

(** ClaimRange: ids above the size of a tree of length 4 are claimed. *)
Theorem C39_claim_range_refuted :
  exists g,
    (do g <- g_new (L := N) cfg_tree16 4; g_step dec cfg_tree16 g (GClaimRange "16-31" 7)) = Ok (g, GDone) /\
    g_get g (MyId 16 12) = Ok (TEntry 16 12 7).
Proof. exact C39_claim_range_refuted_pf. Qed.
Print Assumptions C39_claim_range_refuted.

Theorem C40_release_partial : forall (L : Type) (lstr : L -> string) (c : gcfg) (n : N) (m : record L) (g : gtree L) x,
  c ∈ g_packages_16_32 -> g_hist any_op c n m g -> gid_ok c x -> i_id x < 2 ^ n ->
  g_room c m (GReleaseID x) ->
  exists g', g_step lstr c g (GReleaseID x) = Ok (g', GDone) /\
    match g_get g x with
    | Ok _ => g_get g' x = Err ENotFound /\
              forall y, gid_ok c y -> prefix (gw c) y <> prefix (gw c) x -> g_get g' y = g_get g y
    | _ => g' = g
    end.
Proof. exact C40_release_partial_pf. Qed.
Print Assumptions C40_release_partial.

Example C40_example : (do a <- g_run dec cfg_tree16 (G_start cfg_tree16 4) G_ops; do b <- g_step dec cfg_tree16 (fst a) (GReleaseID (MyId 8 14));
   Ok (snd b, g_get (fst b) (MyId 8 14), g_get (fst b) (MyId 8 15))) = Ok (GDone, Err ENotFound, Ok (TEntry 8 15 4)).
Proof. vm_compute. reflexivity. Qed.

(** GetAll, Size and GetByLabel. *)
Theorem C42_listings_partial : forall (L : Type) (P : gop L -> Prop) (c : gcfg) (n : N) (m : record L) (g : gtree L),
  c ∈ g_packages_16_32 -> g_hist P c n m g ->
  exists es, g_get_all g = Ok (Some <$> es) /\
    StronglySorted (before_entry c) es /\ (forall e, e ∈ es <-> m !! prefix (gw c) (eid e) = Some e) /\
    (forall x e, gid_ok c x -> (g_get g x = Ok e <-> e ∈ es /\ eid e = x)) /\
    g_Size g = Ok (N.of_nat (length es)) /\
    forall sel, g_get_by_label g sel = Ok (Some <$> List.filter (fun e => sel (te_labels e)) es).
Proof. exact C42_listings_partial_pf. Qed.
Print Assumptions C42_listings_partial.

Example C42_example : (do a <- g_run dec cfg_tree16 (G_start cfg_tree16 4) G_ops;
   Ok (g_get_all (fst a), g_Size (fst a), g_get_by_label (fst a) (N.eqb 2))) =
  Ok (Ok [Some (TEntry 2 16 3); Some (TEntry 3 16 5); Some (TEntry 8 14 2); Some (TEntry 8 15 4)], Ok 4,
      Ok [Some (TEntry 8 14 2)]).
Proof. vm_compute. reflexivity. Qed.

Theorem C41_release_by_label_partial : forall (L : Type) (lstr : L -> string) (c : gcfg) (n : N) (m : record L) (g : gtree L) sel es,
  c ∈ g_packages_16_32 -> g_hist any_op c n m g -> g_room c m (GReleaseByLabel sel) ->
  g_get_all g = Ok (Some <$> es) ->
  exists g', g_step lstr c g (GReleaseByLabel sel) = Ok (g', GDone) /\
    g_get_all g' = Ok (Some <$> List.filter (fun e => negb (sel (te_labels e))) es) /\
    g_get_by_label g' sel = Ok [].
Proof. exact C41_release_by_label_partial_pf. Qed.
Print Assumptions C41_release_by_label_partial.

Example C41_example : (do a <- g_run dec cfg_tree16 (G_start cfg_tree16 4) G_ops; do b <- g_step dec cfg_tree16 (fst a) (GReleaseByLabel (N.leb 4));
   Ok (snd b, g_get_all (fst b), g_get_by_label (fst b) (N.leb 4))) =
  Ok (GDone, Ok [Some (TEntry 2 16 3); Some (TEntry 8 14 2)], Ok []).
Proof. vm_compute. reflexivity. Qed.

(** Children: the entries with a strictly longer prefix that extends the id's. *)
Theorem C43_children_partial : forall (L : Type) (P : gop L -> Prop) (c : gcfg) (n : N) (m : record L) (g : gtree L) x es,
  c ∈ g_packages_16_32 -> g_hist P c n m g -> gid_ok c x -> g_get_all g = Ok (Some <$> es) ->
  g_children c g x = Ok (Some <$> List.filter (fun e =>
    bool_decide (prefix (gw c) x `prefix_of` prefix (gw c) (eid e)) && (i_len x <? te_len e)) es).
Proof. exact C43_children_partial_pf. Qed.
Print Assumptions C43_children_partial.

Example C43_example : (do a <- g_run dec cfg_tree16 (G_start cfg_tree16 4) G_ops;
   Ok (g_children cfg_tree16 (fst a) (MyId 8 14), g_children cfg_tree16 (fst a) (MyId 2 15))) =
  Ok (Ok [Some (TEntry 8 15 4)], Ok [Some (TEntry 2 16 3); Some (TEntry 3 16 5)]).
Proof. vm_compute. reflexivity. Qed.

(** Parents: exactly the entries comparable with the id (also its extensions, and
    the entry of the id itself) that are shorter than the width. *)
Theorem C44_parents_characterised : forall (L : Type) (P : gop L -> Prop) (c : gcfg) (n : N) (m : record L) (g : gtree L) x es,
  c ∈ g_packages_16_32 -> g_hist P c n m g -> gid_ok c x -> g_get_all g = Ok (Some <$> es) ->
  g_parents c g x = Ok (Some <$> List.filter (fun e =>
    bool_decide (prefix (gw c) x `prefix_of` prefix (gw c) (eid e) \/ prefix (gw c) (eid e) `prefix_of` prefix (gw c) x) &&
    (te_len e <? gw c)) es).
Proof. exact C44_parents_characterised_pf. Qed.
Print Assumptions C44_parents_characterised.

(** The parents of a shorter id are entries below it, and entries of full length
    are never among them. *)
Example C44_characterised_example : (do a <- g_run dec cfg_tree16 (G_start cfg_tree16 4) G_ops;
   Ok (g_parents cfg_tree16 (fst a) (MyId 8 13), g_parents cfg_tree16 (fst a) (MyId 0 12), g_parents cfg_tree16 (fst a) (MyId 3 16))) =
  Ok (Ok [Some (TEntry 8 14 2); Some (TEntry 8 15 4)], Ok [Some (TEntry 8 14 2); Some (TEntry 8 15 4)], Ok []).
Proof. vm_compute. reflexivity. Qed.

(** The part that holds: every strictly less specific entry is among them, and
    for an id of full length nothing else. *)
Theorem C44_parents_partial : forall (L : Type) (P : gop L -> Prop) (c : gcfg) (n : N) (m : record L) (g : gtree L) x es,
  c ∈ g_packages_16_32 -> g_hist P c n m g -> gid_ok c x -> g_get_all g = Ok (Some <$> es) ->
  exists ps, g_parents c g x = Ok (Some <$> ps) /\
    (forall e, e ∈ es -> te_len e < i_len x -> prefix (gw c) (eid e) `prefix_of` prefix (gw c) x -> e ∈ ps) /\
    (i_len x = gw c -> forall e, e ∈ ps -> e ∈ es /\ te_len e < i_len x /\ prefix (gw c) (eid e) `prefix_of` prefix (gw c) x).
Proof. exact C44_parents_partial_pf. Qed.
Print Assumptions C44_parents_partial.

Example C44_example : (do a <- g_run dec cfg_tree16 (G_start cfg_tree16 4) G_ops;
   Ok (g_parents cfg_tree16 (fst a) (MyId 9 16))) = Ok (Ok [Some (TEntry 8 14 2); Some (TEntry 8 15 4)]).
Proof. vm_compute. reflexivity. Qed.

Theorem C44_parents_refuted :
  exists g rs,
    (do g <- g_new (L := N) cfg_tree16 16; g_run dec cfg_tree16 g [GClaimID (MyId 0 8) 1; GClaimID (MyId 0 12) 2])
      = Ok (g, rs) /\
    g_parents cfg_tree16 g (MyId 0 8) = Ok [Some (TEntry 0 8 1); Some (TEntry 0 12 2)].
Proof. exact C44_parents_refuted_pf. Qed.
Print Assumptions C44_parents_refuted.

(** tree16, all lengths, all histories, unless one entry covers all ids of the
    tree. *)
Theorem C45_claim_free_partial : forall (L : Type) (lstr : L -> string) (n : N) (m : record L) (g : gtree L) l,
  g_hist any_op cfg_tree16 n m g ->
  (forall q e, m !! q = Some e -> ~ forall v, v < 2 ^ n -> covers 16 (eid e) v) ->
  exists g' r, g_step lstr cfg_tree16 g (GClaimFree l) = Ok (g', r) /\
    ((exists v, v < 2 ^ n /\ ~ covered cfg_tree16 m v /\ r = GEntry (TEntry v 16 l) /\
       g_get g' (MyId v 16) = Ok (TEntry v 16 l)) \/
     (r = GErr ENoFreeId /\ g' = g /\ forall v, v < 2 ^ n -> covered cfg_tree16 m v)).
Proof. exact C45_claim_free_partial_pf. Qed.
Print Assumptions C45_claim_free_partial.

(** A tree16 of length 2: three ids, then the fourth, then none. *)
Example C45_example : (do a <- g_run dec cfg_tree16 (G_start cfg_tree16 2)
    [GClaimID (MyId 2 15) 1; GClaimFree 2; GClaimFree 3; GClaimFree 4]; Ok (snd a)) =
  Ok [GDone; GEntry (TEntry 0 16 2); GEntry (TEntry 1 16 3); GErr ENoFreeId] /\
  ~ (forall v, v < 2 ^ 2 -> covers 16 (MyId 2 15) v).
Proof.
  split; [vm_compute; reflexivity|].
  intros H. specialize (H 0 ltac:(vm_compute; done)). vm_compute in H. discriminate.
Qed.

(** An entry that covers the whole tree is overlooked. *)
Theorem C45_covered_id_refuted :
  exists g rs g' rs',
    (do g <- g_new (L := N) cfg_tree16 4; g_run dec cfg_tree16 g [GClaimID (MyId 0 12) 1]) = Ok (g, rs) /\
    (forall v, v < 2 ^ 4 -> covers 16 (MyId 0 12) v) /\
    g_run dec cfg_tree16 g [GClaimFree 2] = Ok (g', rs') /\ rs' = [GEntry (TEntry 0 16 2)].
Proof. exact C45_covered_id_refuted_pf. Qed.
Print Assumptions C45_covered_id_refuted.

(** With length 0 every call of ClaimFree returns id 0. *)
Theorem C45_length_0_refuted : forall (L : Type) (lstr : L -> string) (m : record L) (g : gtree L) l,
  g_hist any_op cfg_tree16 0 m g ->
  exists g', g_step lstr cfg_tree16 g (GClaimFree l) = Ok (g', GEntry (TEntry 0 16 l)).
Proof. exact C45_length_0_refuted_pf. Qed.
Print Assumptions C45_length_0_refuted.

Example C45_length_0_example : (do a <- g_run dec cfg_tree16 (G_start cfg_tree16 0) [GClaimFree 1; GClaimFree 2; GClaimFree 3];
   Ok (snd a, g_get_all (fst a))) =
  Ok ([GEntry (TEntry 0 16 1); GEntry (TEntry 0 16 2); GEntry (TEntry 0 16 3)], Ok [Some (TEntry 0 16 3)]).
Proof. vm_compute. reflexivity. Qed.

(** tree32 of length 16: as tree16. *)
Theorem C46_claim_free_length_16_partial : forall (L : Type) (lstr : L -> string) (m : record L) (g : gtree L) l,
  g_hist any_op cfg_tree32 16 m g -> g_room cfg_tree32 m (GClaimFree l) ->
  (forall q e, m !! q = Some e -> ~ forall v, v < 2 ^ 16 -> covers 32 (eid e) v) ->
  exists g' r, g_step lstr cfg_tree32 g (GClaimFree l) = Ok (g', r) /\
    ((exists v, v < 2 ^ 16 /\ ~ covered cfg_tree32 m v /\ r = GEntry (TEntry v 32 l) /\
       g_get g' (MyId v 32) = Ok (TEntry v 32 l)) \/
     (r = GErr ENoFreeId /\ g' = g /\ forall v, v < 2 ^ 16 -> covered cfg_tree32 m v)).
Proof. exact C46_claim_free_length_16_partial_pf. Qed.
Print Assumptions C46_claim_free_length_16_partial.

Example C46_length_16_example : exists g rs, g_run dec cfg_tree32 (G_start cfg_tree32 16) G_ops32 = Ok (g, rs) /\
  g_hist any_op cfg_tree32 16 (after_all cfg_tree32 ∅ G_ops32 rs) g /\
  (do b <- g_step dec cfg_tree32 g (GClaimFree 8); Ok (snd b)) = Ok (GEntry (TEntry 3 32 8)) /\
  ~ (forall v, v < 2 ^ 16 -> covers 32 (MyId 256 24) v).
Proof.
  destruct G_hist32 as (g & rs & Hr & Hh). exists g, rs. split; [done|]. split; [done|]. clear Hh. split.
  - assert (H : (do a <- g_run dec cfg_tree32 (G_start cfg_tree32 16) G_ops32; do b <- g_step dec cfg_tree32 (fst a) (GClaimFree 8); Ok (snd b)) =
      Ok (GEntry (TEntry 3 32 8))) by (vm_compute; reflexivity). by rewrite Hr in H.
  - intros H. specialize (H 0 ltac:(vm_compute; done)). vm_compute in H. discriminate.
Qed.

(** Any length n: the ids handed out are below 2^(32-n), not only below 2^n. *)
Theorem C46_only_low_ids : forall (L : Type) (lstr : L -> string) (n : N) (m : record L) (g : gtree L) l g' e,
  g_hist any_op cfg_tree32 n m g -> g_room cfg_tree32 m (GClaimFree l) ->
  g_step lstr cfg_tree32 g (GClaimFree l) = Ok (g', GEntry e) ->
  te_id e < 2 ^ (32 - n) /\ te_id e < 2 ^ n /\ te_len e = 32 /\ te_labels e = l /\
  (forall q e', m !! q = Some e' -> n < te_len e' -> ~ covers 32 (eid e') (te_id e)).
Proof. exact C46_only_low_ids_pf. Qed.
Print Assumptions C46_only_low_ids.

Example C46_low_example : (do a <- g_run dec cfg_tree32 (G_start cfg_tree32 16) G_ops32; do b <- g_step dec cfg_tree32 (fst a) (GClaimFree 8); Ok (snd b)) =
  Ok (GEntry (TEntry 3 32 8)) /\ 16 < te_len (TEntry 2 32 3) /\ ~ covers 32 (eid (TEntry 2 32 3)) 3.
Proof. split; [vm_compute; reflexivity|]. split; [by vm_compute|]. vm_compute. discriminate. Qed.

(** Length 31 (ids up to 2^31 - 1): the third call fails although two ids are
    claimed.  Length 32: the second call returns the id of the first. *)
Theorem C46_claim_free_refuted :
  (exists g, (do g <- g_new (L := N) cfg_tree32 31;
     g_run dec cfg_tree32 g [GClaimFree 1; GClaimFree 2; GClaimFree 3]) =
       Ok (g, [GEntry (TEntry 0 32 1); GEntry (TEntry 1 32 2); GErr ENoFreeId])) /\
  (exists g, (do g <- g_new (L := N) cfg_tree32 32; g_run dec cfg_tree32 g [GClaimFree 1; GClaimFree 2]) =
       Ok (g, [GEntry (TEntry 0 32 1); GEntry (TEntry 0 32 2)])).
Proof. exact C46_claim_free_refuted_pf. Qed.
Print Assumptions C46_claim_free_refuted.

(** tree16, every length and history. *)
Theorem C45_claim_free_exact : forall (L : Type) (lstr : L -> string) (n : N) (m : record L) (g : gtree L) l,
  g_hist any_op cfg_tree16 n m g ->
  exists g' r, g_step lstr cfg_tree16 g (GClaimFree l) = Ok (g', r) /\
    ((exists v, v < 2 ^ n /\ r = GEntry (TEntry v 16 l) /\ g_get g' (MyId v 16) = Ok (TEntry v 16 l) /\
       forall q e, m !! q = Some e -> 16 - n < te_len e -> ~ covers 16 (eid e) v) \/
     (r = GErr ENoFreeId /\ g' = g /\
       forall v, v < 2 ^ n -> exists q e, m !! q = Some e /\ 16 - n < te_len e /\ covers 16 (eid e) v)).
Proof. exact C45_claim_free_exact_pf. Qed.
Print Assumptions C45_claim_free_exact.

(** An entry that covers the whole tree is not among those that count. *)
Example C45_exact_example : (do a <- g_run dec cfg_tree16 (G_start cfg_tree16 2)
    [GClaimID (MyId 0 14) 1; GClaimID (MyId 0 15) 2; GClaimFree 3; GClaimFree 4; GClaimFree 5]; Ok (snd a)) =
  Ok [GDone; GDone; GEntry (TEntry 2 16 3); GEntry (TEntry 3 16 4); GErr ENoFreeId].
Proof. vm_compute. reflexivity. Qed.

(** tree32, lengths from 16 on: exactly the ids below 2^(32-n) that no entry longer
    than n covers are handed out. *)
Theorem C46_longer_trees_exact : forall (L : Type) (lstr : L -> string) (n : N) (m : record L) (g : gtree L) l,
  16 <= n -> g_hist any_op cfg_tree32 n m g -> g_room cfg_tree32 m (GClaimFree l) ->
  exists g' r, g_step lstr cfg_tree32 g (GClaimFree l) = Ok (g', r) /\
    ((exists v, v < 2 ^ (32 - n) /\ r = GEntry (TEntry v 32 l) /\ g_get g' (MyId v 32) = Ok (TEntry v 32 l) /\
       forall q e, m !! q = Some e -> n < te_len e -> ~ covers 32 (eid e) v) \/
     (r = GErr ENoFreeId /\ g' = g /\
       forall v, v < 2 ^ (32 - n) -> exists q e, m !! q = Some e /\ n < te_len e /\ covers 32 (eid e) v)).
Proof. exact C46_longer_trees_exact_pf. Qed.
Print Assumptions C46_longer_trees_exact.

Example C46_longer_example : (do a <- g_run dec cfg_tree32 (G_start cfg_tree32 30)
    [GClaimID (MyId 0 31) 1; GClaimFree 2; GClaimFree 3; GClaimFree 4]; Ok (snd a)) =
  Ok [GDone; GEntry (TEntry 2 32 2); GEntry (TEntry 3 32 3); GErr ENoFreeId].
Proof. vm_compute. reflexivity. Qed.

(** Lengths below 16, without ClaimRange: as tree16, but the error is that of an
    id above the size. *)
Theorem C46_shorter_trees_partial : forall (L : Type) (lstr : L -> string) (n : N) (m : record L) (g : gtree L) l,
  n < 16 -> g_hist no_range cfg_tree32 n m g -> g_room cfg_tree32 m (GClaimFree l) ->
  (forall q e, m !! q = Some e -> ~ forall v, v < 2 ^ n -> covers 32 (eid e) v) ->
  exists g' r, g_step lstr cfg_tree32 g (GClaimFree l) = Ok (g', r) /\
    ((exists v, v < 2 ^ n /\ ~ covered cfg_tree32 m v /\ r = GEntry (TEntry v 32 l) /\
       g_get g' (MyId v 32) = Ok (TEntry v 32 l)) \/
     (r = GErr EMaxId /\ g' = g /\ forall v, v < 2 ^ n -> covered cfg_tree32 m v)).
Proof. exact C46_shorter_trees_partial_pf. Qed.
Print Assumptions C46_shorter_trees_partial.

(** A tree32 of length 2: the ids are handed out, then the error is that of an
    id above the size. *)
Example C46_shorter_example : (do a <- g_run dec cfg_tree32 (G_start cfg_tree32 2)
    [GClaimID (MyId 2 31) 1; GClaimFree 2; GClaimFree 3; GClaimFree 4]; Ok (snd a)) =
  Ok [GDone; GEntry (TEntry 0 32 2); GEntry (TEntry 1 32 3); GErr EMaxId].
Proof. vm_compute. reflexivity. Qed.

(** Every length from 17 to 31: two claims, neither of which covers the id
    2^n - 1, and ClaimFree fails. *)
Theorem C46_longer_trees_refuted : forall n, 16 < n < 32 ->
  (exists g, (do g <- g_new (L := N) cfg_tree32 n;
     g_run dec cfg_tree32 g [GClaimID (MyId 0 (n + 1)) 1; GClaimID (MyId (2 ^ (31 - n)) (n + 1)) 2; GClaimFree 3]) =
       Ok (g, [GDone; GDone; GErr ENoFreeId])) /\
  ~ covers 32 (MyId 0 (n + 1)) (2 ^ n - 1) /\ ~ covers 32 (MyId (2 ^ (31 - n)) (n + 1)) (2 ^ n - 1).
Proof. exact C46_longer_trees_refuted_pf. Qed.
Print Assumptions C46_longer_trees_refuted.

Example C46_longer_refuted_example :
  (do g <- g_new (L := N) cfg_tree32 24; do a <- g_run dec cfg_tree32 g [GClaimID (MyId 0 25) 1; GClaimID (MyId 128 25) 2; GClaimFree 3; GClaimID (MyId 256 32) 4]; Ok (snd a)) =
    Ok [GDone; GDone; GErr ENoFreeId; GDone].
Proof. vm_compute. reflexivity. Qed.

(** Lengths below 16: after ClaimRange of ids above the size ClaimFree fails
    although no id of the tree is claimed. *)
Theorem C46_range_above_refuted :
  exists g, (do g <- g_new (L := N) cfg_tree32 8;
     g_run dec cfg_tree32 g [GClaimRange "1000-1000" 1; GClaimFree 2]) = Ok (g, [GDone; GErr EMaxId]).
Proof. exact C46_range_above_refuted_pf. Qed.
Print Assumptions C46_range_above_refuted.

(** No call of ClaimFree on any tree64, in any state, succeeds. *)
Theorem C47_claim_free_refuted : forall (L : Type) (lstr : L -> string) (g : gtree L) l g' e,
  g_step lstr cfg_tree64 g (GClaimFree l) <> Ok (g', GEntry e).
Proof. exact C47_claim_free_refuted_pf. Qed.
Print Assumptions C47_claim_free_refuted.

Example C47_example : (do g <- g_new (L := N) cfg_tree64 64; g_step dec cfg_tree64 g (GClaimFree 1)) = Panic /\
  (do g <- g_new (L := N) cfg_tree64 64; do a <- g_step dec cfg_tree64 g (GClaimID (MyId 5 64) 1); g_step dec cfg_tree64 (fst a) (GClaimFree 1)) = Panic.
Proof. split; vm_compute; reflexivity. Qed.

(** On a new tree64 of any length it panics. *)
Theorem C47_claim_free_panics_refuted : forall (L : Type) (lstr : L -> string) (n : N) l,
  n <= 64 -> exists g : gtree L, g_new cfg_tree64 n = Ok g /\ g_step lstr cfg_tree64 g (GClaimFree l) = Panic.
Proof. exact C47_claim_free_panics_refuted_pf. Qed.
Print Assumptions C47_claim_free_panics_refuted.

Example C47_panics_example : (do g <- g_new (L := N) cfg_tree64 16; Ok (g_length g, g_step dec cfg_tree64 g (GClaimFree 1))) = Ok (16, Panic).
Proof. vm_compute. reflexivity. Qed.

(** tree64: the entries of two prefixes are stored at one place. *)
Theorem C48_shared_storage_refuted :
  exists g rs,
    (do g <- g_new (L := N) cfg_tree64 64;
     g_run dec cfg_tree64 g [GClaimID (MyId 0 1) 1; GClaimID (MyId (2 ^ 63) 1) 2]) = Ok (g, rs) /\
    rs = [GDone; GDone] /\
    g_get_all g = Ok [Some (TEntry (2 ^ 63) 1 2); Some (TEntry (2 ^ 63) 1 2)].
Proof. exact C48_shared_storage_refuted_pf. Qed.
Print Assumptions C48_shared_storage_refuted.

(** tree16 and tree32: the range a-b, a <= b. *)
Theorem C49_claim_range_partial : forall (L : Type) (lstr : L -> string) (c : gcfg) (n : N) (m : record L) (g : gtree L) s l a b,
  c ∈ g_packages_16_32 -> g_hist any_op c n m g -> g_room c m (GClaimRange s l) ->
  parse_range (gc_id c) s = Ok (range_from (gc_id c) a b) -> a <= b ->
  exists g' ids, g_step lstr c g (GClaimRange s l) = Ok (g', GDone) /\
    is_decomposition (gw c) ids a b /\
    (forall x, x ∈ ids -> g_get g' x = Ok (TEntry (i_id x) (i_len x) l)) /\
    (forall y, gid_ok c y -> (forall x, x ∈ ids -> prefix (gw c) x <> prefix (gw c) y) -> g_get g' y = g_get g y).
Proof. exact C49_claim_range_partial_pf. Qed.
Print Assumptions C49_claim_range_partial.

Example C49_example :
  (do a <- g_run dec cfg_tree16 (G_start cfg_tree16 4) [GClaimRange "3-9" 7]; g_get_all (fst a)) =
    Ok [Some (TEntry 3 16 7); Some (TEntry 4 14 7); Some (TEntry 8 15 7)] /\
  parse_range (gc_id cfg_tree16) "3-9" = Ok (range_from (gc_id cfg_tree16) 3 9).
Proof. split; [vm_compute; reflexivity|]. vm_compute. reflexivity. Qed.

(** tree16 and tree32: the range a-b, b < a.  The call succeeds and claims the ids
    from [a] to the end of its half block, and those from the start of the half
    block of [b] to [b]. *)
Theorem C77_reversed_claim_range_characterised : forall (L : Type) (lstr : L -> string) (c : gcfg) (n : N) (m : record L) (g : gtree L) s l a b,
  c ∈ g_packages_16_32 -> g_hist any_op c n m g -> g_room c m (GClaimRange s l) ->
  parse_range (gc_id c) s = Ok (range_from (gc_id c) a b) -> b < a ->
  exists g' (ids : list id), g_step lstr c g (GClaimRange s l) = Ok (g', GDone) /\
    (forall v, (exists x, x ∈ ids /\ covers (gw c) x v) <->
       (a <= v /\ v / half_size a b = a / half_size a b) \/
       (v <= b /\ v / half_size a b = b / half_size a b)) /\
    (forall x, x ∈ ids -> g_get g' x = Ok (TEntry (i_id x) (i_len x) l)) /\
    (forall y, gid_ok c y -> (forall x, x ∈ ids -> prefix (gw c) x <> prefix (gw c) y) -> g_get g' y = g_get g y).
Proof. exact C77_reversed_claim_range_characterised_pf. Qed.
Print Assumptions C77_reversed_claim_range_characterised.

Example C77_example : parse_range (gc_id cfg_tree16) "20-9" = Ok (range_from (gc_id cfg_tree16) 20 9) /\
  half_size 20 9 = 16 /\
  (do a <- g_run dec cfg_tree16 (G_start cfg_tree16 8) [GClaimRange "20-9" 7]; Ok (snd a, g_get_all (fst a))) =
    Ok ([GDone], Ok [Some (TEntry 0 13 7); Some (TEntry 8 15 7); Some (TEntry 20 14 7); Some (TEntry 24 13 7)]).
Proof. split; [vm_compute; reflexivity|]. split; vm_compute; reflexivity. Qed.

(** So it is never refused, and claims both bounds. *)
Theorem C77_reversed_claim_range_refuted : forall (L : Type) (lstr : L -> string) (c : gcfg) (n : N) (m : record L) (g : gtree L) s l a b,
  c ∈ g_packages_16_32 -> g_hist any_op c n m g -> g_room c m (GClaimRange s l) ->
  parse_range (gc_id c) s = Ok (range_from (gc_id c) a b) -> b < a ->
  exists g' x y, g_step lstr c g (GClaimRange s l) = Ok (g', GDone) /\
    covers (gw c) x a /\ g_get g' x = Ok (TEntry (i_id x) (i_len x) l) /\
    covers (gw c) y b /\ g_get g' y = Ok (TEntry (i_id y) (i_len y) l).
Proof. exact C77_reversed_claim_range_refuted_pf. Qed.
Print Assumptions C77_reversed_claim_range_refuted.

Example C77_example32 : parse_range (gc_id cfg_tree32) "1-0" = Ok (range_from (gc_id cfg_tree32) 1 0) /\
  (do a <- g_run dec cfg_tree32 (G_start cfg_tree32 8) [GClaimRange "1-0" 7]; Ok (snd a, g_get_all (fst a))) =
    Ok ([GDone], Ok [Some (TEntry 0 32 7); Some (TEntry 1 32 7)]).
Proof. split; vm_compute; reflexivity. Qed.

(** A malformed range string is refused. *)
Theorem C49_malformed_partial : forall (L : Type) (lstr : L -> string) (c : gcfg) (g : gtree L) s l,
  c ∈ g_packages -> (forall r, parse_range (gc_id c) s <> Ok r) ->
  exists e, g_step lstr c g (GClaimRange s l) = Ok (g, GErr e).
Proof. exact C49_malformed_partial_pf. Qed.
Print Assumptions C49_malformed_partial.

Example C49_malformed_example : (forall r, parse_range (gc_id cfg_tree16) "3-70000" <> Ok r) /\ (forall r, parse_range (gc_id cfg_tree16) "37" <> Ok r) /\
  (do a <- g_run dec cfg_tree16 (G_start cfg_tree16 4) [GClaimRange "37" 1; GClaimRange "3-70000" 1]; g_get_all (fst a)) = Ok [].
Proof.
  split; [intros r H; vm_compute in H; discriminate|]. split; [intros r H; vm_compute in H; discriminate|].
  vm_compute. reflexivity.
Qed.

(** tree16 and tree32: every modifying call returns, with the result stated by
    [returns]. *)
Theorem C59_calls_return_partial : forall (L : Type) (lstr : L -> string) (c : gcfg) (n : N) (m : record L) (g : gtree L) o,
  c ∈ g_packages_16_32 -> g_hist any_op c n m g -> gop_ok c o -> g_room c m o ->
  exists g' r, g_step lstr c g o = Ok (g', r) /\ returns c n m o r /\ g_hist any_op c n (after c m o r) g'.
Proof. exact C59_calls_return_partial_pf. Qed.
Print Assumptions C59_calls_return_partial.

Example C59_example : exists (m : record N) g, g_hist no_range cfg_tree16 4 m g /\ chosen cfg_tree16 4 m 0.
Proof.
  destruct G_hist16 as (g & rs & Hr & Hh). eexists _, g. split; [exact Hh|].
  assert (Ha : g_hist any_op cfg_tree16 4 (after_all cfg_tree16 ∅ G_ops rs) g).
  { clear Hr. induction Hh; [by apply hist_new|by eapply hist_step]. }
  destruct (C59_calls_return_partial_pf N dec cfg_tree16 4 _ g (GClaimFree 9) ltac:(left) Ha I ltac:(by left))
    as (g' & r & Hs & Hret & _).
  revert Hret. generalize (after_all cfg_tree16 ∅ G_ops rs). intros m Hret. clear Hh Ha.
  assert (H : (do a <- g_run dec cfg_tree16 (G_start cfg_tree16 4) G_ops;
    do b <- g_step dec cfg_tree16 (fst a) (GClaimFree 9); Ok (snd b)) = Ok (GEntry (TEntry 0 16 9))) by (vm_compute; reflexivity).
  rewrite Hr in H. cbn [rbind fst snd] in H. rewrite Hs in H. cbn [rbind fst snd] in H. clear Hr Hs. injection H as ->.
  destruct Hret as [(v & Hv & Hr)|[_ Hr]]; [|discriminate].
  destruct (2 ^ 4 <=? v); [discriminate|]. injection Hr as <-. exact Hv.
Qed.

(** So every list of calls on a new tree runs to its end, and is a history in the
    sense of the other statements, as long as the entries fit the keys. *)
Theorem C59_runs_return_partial : forall (L : Type) (lstr : L -> string) (P : gop L -> Prop) (c : gcfg) (n : N) (os : list (gop L)) (g0 : gtree L),
  c ∈ g_packages_16_32 -> g_new c n = Ok g0 -> Forall (gop_ok c) os -> Forall P os ->
  (gw c = 16 \/ N.of_nat (growth_all c os) + 2 <= 2 ^ 31) ->
  exists g rs, g_run lstr c g0 os = Ok (g, rs) /\ g_hist P c n (after_all c ∅ os rs) g.
Proof. exact C59_runs_return_partial_pf. Qed.
Print Assumptions C59_runs_return_partial.

Example C59_runs_example : g_new cfg_tree32 16 = Ok (G_start cfg_tree32 16) /\ Forall (gop_ok cfg_tree32) G_ops32 /\
  N.of_nat (growth_all cfg_tree32 G_ops32) + 2 <= 2 ^ 31.
Proof. split; [vm_compute; reflexivity|]. split; [repeat constructor; vm_compute; done|]. vm_compute. discriminate. Qed.

(** An id longer than the width makes ClaimFree panic. *)
Theorem C59_long_ids_refuted :
  exists g, (do g <- g_new (L := N) cfg_tree16 4; g_run dec cfg_tree16 g [GClaimID (MyId 3 17) 1]) = Ok (g, [GDone]) /\
    g_step dec cfg_tree16 g (GClaimFree 2) = Panic.
Proof. exact C59_long_ids_refuted_pf. Qed.
Print Assumptions C59_long_ids_refuted.

(** Clone: Get and ClaimID on the copy panic. *)
Theorem C60_clone_refuted :
  exists g, (do g <- g_new (L := N) cfg_tree32 16;
             g_run dec cfg_tree32 g [GClaimID (MyId 0 20) 1; GClaimID (MyId 4096 24) 2]) = Ok (g, [GDone; GDone]) /\
    g_get g (MyId 0 20) = Ok (TEntry 0 20 1) /\ g_get (g_clone g) (MyId 0 20) = Panic /\
    g_get_all (g_clone g) = Ok [None; None] /\
    g_step dec cfg_tree32 (g_clone g) (GClaimID (MyId 8192 24) 3) = Panic.
Proof. exact C60_clone_refuted_pf. Qed.
Print Assumptions C60_clone_refuted.

(** The part that holds: Size() of the copy. *)
Theorem C60_clone_size_partial : forall (L : Type) (c : gcfg) (n : N) (m : record L) (g : gtree L),
  c ∈ g_packages_16_32 -> g_hist any_op c n m g -> g_Size (g_clone g) = g_Size g.
Proof. exact C60_clone_size_partial_pf. Qed.
Print Assumptions C60_clone_size_partial.

Example C60_example :
  (do a <- g_run dec cfg_tree32 (G_start cfg_tree32 16) G_ops32; g_Size (g_clone (fst a))) = Ok 2.
Proof. vm_compute. reflexivity. Qed.

(** Calls of ClaimFree on a new tree16 return its ids from 0 up, each once, then
    fail. *)
Theorem C79_tree16_in_order : forall (L : Type) (lstr : L -> string) (n : N) (ls : list L), 1 <= n <= 16 ->
  exists g0 g rs, g_new cfg_tree16 n = Ok g0 /\ g_run lstr cfg_tree16 g0 (map GClaimFree ls) = Ok (g, rs) /\
    length rs = length ls /\
    forall i l, ls !! i = Some l ->
      rs !! i = Some (if N.of_nat i <? 2 ^ n then GEntry (TEntry (N.of_nat i) 16 l) else GErr ENoFreeId).
Proof. exact C79_tree16_in_order_pf. Qed.
Print Assumptions C79_tree16_in_order.

Example C79_example16 : exists g,
  (do g <- g_new (L := N) cfg_tree16 2; g_run dec cfg_tree16 g (map GClaimFree [7; 8; 7; 9; 5; 6])) =
    Ok (g, [GEntry (TEntry 0 16 7); GEntry (TEntry 1 16 8); GEntry (TEntry 2 16 7); GEntry (TEntry 3 16 9);
            GErr ENoFreeId; GErr ENoFreeId]).
Proof. eexists. vm_compute. reflexivity. Qed.

(** On a new tree32 of length n likewise, but only the first 2^(32-n) when n is
    above 16; with n below 16 the error is that of an id out of range. *)
Theorem C79_tree32_in_order : forall (L : Type) (lstr : L -> string) (n : N) (ls : list L), n <= 31 ->
  exists g0 g rs, g_new cfg_tree32 n = Ok g0 /\ g_run lstr cfg_tree32 g0 (map GClaimFree ls) = Ok (g, rs) /\
    length rs = length ls /\
    forall i l, ls !! i = Some l ->
      rs !! i = Some (if N.of_nat i <? 2 ^ N.min n (32 - n) then GEntry (TEntry (N.of_nat i) 32 l)
                      else GErr (if n <? 16 then EMaxId else ENoFreeId)).
Proof. exact C79_tree32_in_order_pf. Qed.
Print Assumptions C79_tree32_in_order.

Example C79_example32 :
  (exists g, (do g <- g_new (L := N) cfg_tree32 30; g_run dec cfg_tree32 g (map GClaimFree [7; 8; 7; 9; 5])) =
    Ok (g, [GEntry (TEntry 0 32 7); GEntry (TEntry 1 32 8); GEntry (TEntry 2 32 7); GEntry (TEntry 3 32 9);
            GErr ENoFreeId])) /\
  (exists g, (do g <- g_new (L := N) cfg_tree32 1; g_run dec cfg_tree32 g (map GClaimFree [7; 8; 7])) =
    Ok (g, [GEntry (TEntry 0 32 7); GEntry (TEntry 1 32 8); GErr EMaxId])).
Proof. split; eexists; vm_compute; reflexivity. Qed.
