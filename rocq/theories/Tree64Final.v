(** Proofs of the property statements about 64-bit ids. *)
From Verif Require Import IdFinal IdProofs TreeMain TreeSim GTree64Proofs.
From Verif Require Export Tree64Spec.
From Coq Require Import Lia ZifyBool ZifyNat ZifyN.
From Coq Require Strings.String.
Import Coq.Strings.String.StringSyntax.
Local Open Scope string_scope.
Local Open Scope N_scope.

(* ------------------------------------------------------------------ C73 *)
(** Set and Delete on a tree over 64-bit ids: the set of prefixes is right, and
    so are the results, but all prefixes share one value, that of the last Set;
    a Delete that finds it sets it to the zero value.  No call panics, and the
    node array never moves under a pointer. *)
Lemma C73_one_value_pf : forall (T : Type) (zero : T) (os : list (top T)),
  Forall (top_ok cfg_id64) os -> Forall set_or_delete os ->
  exists s P cell,
    cell_run zero (∅, zero) os = ((P, cell), snd (cell_run zero (∅, zero) os)) /\
    t_run zero cfg_id64 (tree_zero cfg_id64) os = Ok (s, snd (cell_run zero (∅, zero) os)) /\
    iter_all zero s = Ok (replicate (size P) [cell]) /\ t_gen s = 0.
Proof.
  intros T zero os Hok Hsd.
  destruct (cell_run_spec zero os (tree_zero cfg_id64) (∅, zero) (CInv_zero zero)) as (s & Hs & Hc & _); [done|done|].
  destruct (iter_cell zero s _ Hc) as (it & Hl & Hg & _).
  exists s, (fst (fst (cell_run zero (∅, zero) os))), (snd (fst (cell_run zero (∅, zero) os))).
  split; [by destruct (cell_run zero (∅, zero) os) as [[? ?] ?]|]. split; [done|]. split; [|done].
  unfold iter_all. rewrite Hl. done.
Qed.

(* ------------------------------------------------------------------ C33 *)
Lemma run_cell {T} (zero : T) (os : list (top T)) s rs :
  Forall (top_ok cfg_id64) os -> Forall set_or_delete os ->
  t_run zero cfg_id64 (tree_zero cfg_id64) os = Ok (s, rs) ->
  CInv zero s (fst (cell_run zero (∅, zero) os)) /\ t_n s <= 2 + 2 * N.of_nat (cell_peak zero (∅, zero) os).
Proof.
  intros Hok Hsd Hrun.
  destruct (cell_run_spec zero os (tree_zero cfg_id64) (∅, zero) (CInv_zero zero)) as (s' & Hs & Hc & Hn); [done|done|].
  rewrite Hs in Hrun. injection Hrun as -> _. split; [done|]. change (t_n (tree_zero cfg_id64)) with 2 in Hn. clear -Hn. lia.
Qed.

(** The iteration: one stop for every prefix, each with the one value; then Next is
    false, and stays false. *)
Lemma C33_id64_values_pf : forall (T : Type) (zero : T) (os : list (top T)) s rs,
  Forall (top_ok cfg_id64) os -> Forall set_or_delete os ->
  t_run zero cfg_id64 (tree_zero cfg_id64) os = Ok (s, rs) ->
  exists P cell it, cell_run zero (∅, zero) os = ((P, cell), rs) /\
    iter_loop zero (S (N.to_nat (t_n s))) s iterate = Ok (replicate (size P) [cell], it) /\
    iter_next s it = Ok (it, false).
Proof.
  intros T zero os s rs Hok Hsd Hrun.
  destruct (run_cell zero os s rs Hok Hsd Hrun) as [Hc _].
  destruct (C73_one_value_pf T zero os Hok Hsd) as (s' & P & cell & E & H1 & _).
  rewrite H1 in Hrun. injection Hrun as -> <-. destruct (iter_cell zero s _ Hc) as (it & Hl & _ & Hn).
  exists P, cell, it. split; [done|]. rewrite E in Hl. done.
Qed.

(* ------------------------------------------------------------------ C74 *)
(** Every sequence of calls on every tree64: results, panics and what can be read
    afterwards. *)
Lemma C74_tree64_exact_pf : forall (L : Type) (lstr : L -> string) (n : N) (os : list (gop L)),
  n <= 64 -> Forall (gop_ok cfg_tree64) os ->
  match one_run n (∅, None) os with
  | Some (st, rs) =>
      exists g, (do g <- g_new cfg_tree64 n; g_run lstr cfg_tree64 g os) = Ok (g, rs) /\ sees g st
  | None => (do g <- g_new cfg_tree64 n; g_run lstr cfg_tree64 g os) = Panic
  end.
Proof.
  intros L lstr n os Hn Hok. destruct (new_64 (L := L) n Hn) as (g & -> & H). cbn [rbind].
  pose proof (run_64 lstr n os (∅, None) g H Hok) as Hr.
  destruct (one_run n (∅, None) os) as [[st rs]|]; [|done]. destruct Hr as (g' & -> & H'). exists g'. split; [done|].
  by eapply sees_64.
Qed.

Lemma one_run_app {L} n os1 os2 : forall st : one L,
  one_run n st (os1 ++ os2) =
    match one_run n st os1 with
    | None => None
    | Some a => match one_run n (fst a) os2 with None => None | Some b => Some (fst b, snd a ++ snd b) end
    end.
Proof.
  induction os1 as [|o os1 IH]; intros st; cbn [app one_run fst snd].
  - by destruct (one_run n st os2) as [[? ?]|].
  - destruct (one_step n st o) as [[st1 r]|]; [|done]. cbn [fst snd]. rewrite IH.
    destruct (one_run n st1 os1) as [[st2 rs]|]; [|done]. cbn [fst snd].
    by destruct (one_run n st2 os2) as [[? ?]|].
Qed.

(* ------------------------------------------------------------------ C47 *)
(** ClaimFree panics on every tree64, whatever was called before. *)
Lemma C47_claim_free_always_panics_refuted_pf : forall (L : Type) (lstr : L -> string) (n : N) (os : list (gop L)) l,
  n <= 64 -> Forall (gop_ok cfg_tree64) os ->
  (do g <- g_new cfg_tree64 n; g_run lstr cfg_tree64 g (os ++ [GClaimFree l])) = Panic.
Proof.
  intros L lstr n os l Hn Hok. pose proof (C74_tree64_exact_pf L lstr n (os ++ [GClaimFree l]) Hn) as H.
  rewrite one_run_app in H. cbn [one_run one_step] in H.
  assert (E : match one_run n (∅, None) os with Some _ => None | None => None end = @None (one L * list (gres L)))
    by (by destruct (one_run n (∅, None) os)).
  rewrite E in H. apply H. apply Forall_app. split; [done|]. by constructor.
Qed.

(* ------------------------------------------------------------------ C48 *)
Lemma not_full n x : i_id x < 2 ^ n -> (2 ^ n <=? i_id x) = false.
Proof. apply N.leb_gt. Qed.

(** tree64: a claim hides the claim before it. *)
Lemma C48_earlier_claim_lost_refuted_pf : forall (L : Type) (lstr : L -> string) (n : N) x y (l1 l2 : L),
  n <= 64 -> gid_ok cfg_tree64 x -> gid_ok cfg_tree64 y -> i_id x < 2 ^ n -> i_id y < 2 ^ n ->
  prefix 64 x <> prefix 64 y ->
  exists g, (do g <- g_new cfg_tree64 n; g_run lstr cfg_tree64 g [GClaimID x l1; GClaimID y l2]) = Ok (g, [GDone; GDone]) /\
    g_Size g = Ok 2 /\ g_get g x = Err ENotFound /\
    g_get_all g = Ok [Some (TEntry (i_id y) (i_len y) l2); Some (TEntry (i_id y) (i_len y) l2)].
Proof.
  intros L lstr n x y l1 l2 Hn Hx Hy Hnx Hny Hne.
  pose proof (C74_tree64_exact_pf L lstr n [GClaimID x l1; GClaimID y l2] Hn) as H.
  cbn [one_run one_step] in H. rewrite !not_full in H by done. cbn [fst snd] in H.
  unfold one_claim in H. cbn [fst snd] in H. destruct H as (g & Hg & H).
  { repeat (apply Forall_cons; split; [done|]). by apply Forall_nil. }
  destruct H as (H1 & H2 & H3 & _). cbn [fst snd] in *.
  assert (Hsz : size ({[prefix 64 y]} ∪ ({[prefix 64 x]} ∪ ∅) : pset) = 2%nat).
  { rewrite size_union, size_union, !size_singleton, size_empty by set_solver. done. }
  rewrite Hsz in *. exists g. split; [done|]. split; [done|]. split; [|done].
  rewrite H3. unfold one_get. cbn [fst snd]. rewrite bool_decide_false by set_solver.
  destruct (same_id _ x) eqn:E; [|done]. exfalso. unfold same_id in E. cbn [te_id te_len] in E.
  apply andb_true_iff in E as [E1 E2]. apply N.eqb_eq in E1, E2. apply Hne. destruct x, y. cbn in *. by subst.
Qed.

(** tree64: after the last claimed id is released, reading the others panics. *)
Lemma C48_release_breaks_others_refuted_pf : forall (L : Type) (lstr : L -> string) (n : N) x y z (l1 l2 : L),
  n <= 64 -> gid_ok cfg_tree64 x -> gid_ok cfg_tree64 y -> i_id x < 2 ^ n -> i_id y < 2 ^ n -> i_id z < 2 ^ n ->
  prefix 64 x <> prefix 64 y ->
  exists g, (do g <- g_new cfg_tree64 n; g_run lstr cfg_tree64 g [GClaimID x l1; GClaimID y l2; GReleaseID y]) =
      Ok (g, [GDone; GDone; GDone]) /\
    g_Size g = Ok 1 /\ g_get_all g = Ok [None] /\ g_get g z = Panic /\
    g_step lstr cfg_tree64 g (GReleaseID z) = Panic.
Proof.
  intros L lstr n x y z l1 l2 Hn Hx Hy Hnx Hny Hnz Hne.
  destruct (new_64 (L := L) n Hn) as (g0 & Hg0 & H0). rewrite Hg0. cbn [rbind].
  pose proof (run_64 lstr n [GClaimID x l1; GClaimID y l2; GReleaseID y] (∅, None) g0 H0) as H.
  cbn [one_run one_step] in H. rewrite !not_full in H by done. cbn [fst snd] in H.
  unfold one_claim in H. cbn [fst snd] in H. rewrite bool_decide_false in H by set_solver.
  assert (Hs : same_id (TEntry (i_id y) (i_len y) l2) y = true) by (unfold same_id; cbn; by rewrite !N.eqb_refl).
  rewrite Hs in H. cbn [fst snd] in H. destruct H as (g & Hg & H).
  { repeat (apply Forall_cons; split; [done|]). by apply Forall_nil. }
  assert (HP : ({[prefix 64 y]} ∪ ({[prefix 64 x]} ∪ ∅)) ∖ {[prefix 64 y]} = ({[prefix 64 x]} : pset)) by set_solver.
  rewrite HP in H. exists g. split; [done|].
  pose proof (step_64 lstr n _ g (GReleaseID z) H) as Hstep.
  destruct (sees_64 n _ g H) as (H1 & H2 & H3 & _). cbn [fst snd] in *. rewrite size_singleton in *.
  split; [done|]. split; [done|]. rewrite H3. unfold one_get. cbn [fst snd]. rewrite bool_decide_false by set_solver.
  split; [done|]. unfold g_step, g_release_id. rewrite (validate_64 n _ g z H), not_full by done. cbn [rbind].
  rewrite H3. unfold one_get. cbn [fst snd]. rewrite bool_decide_false by set_solver. done.
Qed.

(* -------------------------------------------------------------- C37-C43 *)
Lemma two_claims {L} (lstr : L -> string) n x y (l1 l2 : L) :
  n <= 64 -> gid_ok cfg_tree64 x -> gid_ok cfg_tree64 y -> i_id x < 2 ^ n -> i_id y < 2 ^ n -> prefix 64 x <> prefix 64 y ->
  forall os, Forall (gop_ok cfg_tree64) os ->
  let P : pset := {[prefix 64 y]} ∪ {[prefix 64 x]} in
  match one_run n (P, Some (TEntry (i_id y) (i_len y) l2)) os with
  | Some (st, rs) =>
      exists g, (do g <- g_new cfg_tree64 n; g_run lstr cfg_tree64 g ([GClaimID x l1; GClaimID y l2] ++ os)) =
        Ok (g, GDone :: GDone :: rs) /\ sees g st
  | None => True
  end.
Proof.
  intros Hn Hx Hy Hnx Hny Hne os Hos P.
  pose proof (C74_tree64_exact_pf L lstr n ([GClaimID x l1; GClaimID y l2] ++ os) Hn) as H.
  cbn [app one_run one_step] in H. rewrite !not_full in H by done. cbn [fst snd] in H.
  unfold one_claim in H. cbn [fst snd] in H.
  assert (HP : {[prefix 64 y]} ∪ ({[prefix 64 x]} ∪ ∅) = P) by (unfold P; set_solver). rewrite HP in H.
  destruct (one_run n (P, _) os) as [[st rs]|]; [|done]. cbn [fst snd] in H. apply H.
  repeat (apply Forall_cons; split; [done|]). done.
Qed.
Lemma two_size x y : prefix 64 x <> prefix 64 y -> size ({[prefix 64 y]} ∪ {[prefix 64 x]} : pset) = 2%nat.
Proof. intros H. rewrite size_union, !size_singleton by set_solver. done. Qed.

(** tree64: ReleaseID of a claimed id succeeds and removes nothing. *)
Lemma C40_tree64_refuted_pf : forall (L : Type) (lstr : L -> string) (n : N) x y (l1 l2 : L),
  n <= 64 -> gid_ok cfg_tree64 x -> gid_ok cfg_tree64 y -> i_id x < 2 ^ n -> i_id y < 2 ^ n ->
  prefix 64 x <> prefix 64 y ->
  exists g, (do g <- g_new cfg_tree64 n; g_run lstr cfg_tree64 g [GClaimID x l1; GClaimID y l2; GReleaseID x]) =
      Ok (g, [GDone; GDone; GDone]) /\
    g_Size g = Ok 2.
Proof.
  intros L lstr n x y l1 l2 Hn Hx Hy Hnx Hny Hne.
  pose proof (two_claims lstr n x y l1 l2 Hn Hx Hy Hnx Hny Hne [GReleaseID x]) as H. cbn [one_run one_step] in H.
  rewrite not_full in H by done. cbn [fst snd] in H. rewrite bool_decide_false in H by set_solver.
  assert (Hs : same_id (TEntry (i_id y) (i_len y) l2) x = false).
  { unfold same_id. cbn [te_id te_len]. destruct x as [xi xl], y as [yi yl]. cbn [i_id i_len].
    destruct (N.eqb_spec yi xi) as [->|]; [|done]. destruct (N.eqb_spec yl xl) as [->|]; [|done]. by destruct Hne. }
  rewrite Hs in H. destruct H as (g & Hg & H & _); [by constructor|]. cbn [fst] in H. rewrite two_size in H by done. eauto.
Qed.

(** tree64: ReleaseByLabel loses an entry whose labels do not match. *)
Lemma C41_tree64_refuted_pf : forall (L : Type) (lstr : L -> string) (n : N) x y (l1 l2 : L) (sel : L -> bool),
  n <= 64 -> gid_ok cfg_tree64 x -> gid_ok cfg_tree64 y -> i_id x < 2 ^ n -> i_id y < 2 ^ n ->
  prefix 64 x <> prefix 64 y -> sel l1 = false -> sel l2 = true ->
  exists g, (do g <- g_new cfg_tree64 n; g_run lstr cfg_tree64 g [GClaimID x l1; GClaimID y l2; GReleaseByLabel sel]) =
      Ok (g, [GDone; GDone; GDone]) /\
    g_get_all g = Ok [None] /\ g_get g x = Panic /\ g_get_by_label g sel = Panic.
Proof.
  intros L lstr n x y l1 l2 sel Hn Hx Hy Hnx Hny Hne Hs1 Hs2.
  pose proof (two_claims lstr n x y l1 l2 Hn Hx Hy Hnx Hny Hne [GReleaseByLabel sel]) as H. cbn [one_run one_step] in H.
  cbn [fst snd] in H. rewrite bool_decide_false in H by set_solver. cbn [te_labels] in H. rewrite Hs2 in H.
  destruct H as (g & Hg & _ & H1 & H2 & H3 & _); [by constructor|]. cbn [fst snd] in *.
  replace (eid (TEntry (i_id y) (i_len y) l2)) with y in * by (by destruct y).
  assert (HP : ({[prefix 64 y]} ∪ {[prefix 64 x]}) ∖ {[prefix 64 y]} = ({[prefix 64 x]} : pset)) by set_solver.
  rewrite HP in *. rewrite size_singleton in H1. exists g. split; [done|]. split; [done|].
  rewrite H2, H3. unfold one_get, one_list. cbn [fst snd]. rewrite !bool_decide_false by set_solver. done.
Qed.

(** tree64: the listings show the last claimed entry once for every stored prefix;
    the other entry appears in none of them. *)
Lemma C42_tree64_refuted_pf : forall (L : Type) (lstr : L -> string) (n : N) x y (l1 l2 : L),
  n <= 64 -> gid_ok cfg_tree64 x -> gid_ok cfg_tree64 y -> i_id x < 2 ^ n -> i_id y < 2 ^ n ->
  prefix 64 x <> prefix 64 y ->
  exists g, (do g <- g_new cfg_tree64 n; g_run lstr cfg_tree64 g [GClaimID x l1; GClaimID y l2]) = Ok (g, [GDone; GDone]) /\
    g_get_all g = Ok (replicate 2 (Some (TEntry (i_id y) (i_len y) l2))) /\
    forall sel, g_get_by_label g sel = Ok (if sel l2 then replicate 2 (Some (TEntry (i_id y) (i_len y) l2)) else []).
Proof.
  intros L lstr n x y l1 l2 Hn Hx Hy Hnx Hny Hne.
  pose proof (two_claims lstr n x y l1 l2 Hn Hx Hy Hnx Hny Hne []) as H. cbn [one_run] in H.
  destruct H as (g & Hg & _ & H1 & _ & H2 & _); [by constructor|]. cbn [fst snd] in *.
  rewrite two_size in H1 by done. exists g. split; [done|]. split; [done|]. intros sel. rewrite H2. unfold one_list. cbn [fst snd].
  rewrite bool_decide_false by set_solver. by rewrite two_size.
Qed.

(** tree64: Children lists the last claimed entry once for every stored prefix. *)
Lemma C43_tree64_refuted_pf : forall (L : Type) (lstr : L -> string) (n : N) x y (l1 l2 : L),
  n <= 64 -> gid_ok cfg_tree64 x -> gid_ok cfg_tree64 y -> i_id x < 2 ^ n -> i_id y < 2 ^ n ->
  prefix 64 x <> prefix 64 y -> 0 < i_len y ->
  exists g, (do g <- g_new cfg_tree64 n; g_run lstr cfg_tree64 g [GClaimID x l1; GClaimID y l2]) = Ok (g, [GDone; GDone]) /\
    g_children cfg_tree64 g (MyId 0 0) = Ok (replicate 2 (Some (TEntry (i_id y) (i_len y) l2))).
Proof.
  intros L lstr n x y l1 l2 Hn Hx Hy Hnx Hny Hne Hlen.
  pose proof (two_claims lstr n x y l1 l2 Hn Hx Hy Hnx Hny Hne []) as H. cbn [one_run] in H.
  destruct H as (g & Hg & _ & _ & _ & _ & H & _); [by constructor|].
  exists g. split; [done|]. rewrite H by (by vm_compute). unfold one_list. cbn [fst snd].
  rewrite bool_decide_false by set_solver. rewrite two_size by done. cbn [te_len eid te_id i_len].
  rewrite bool_decide_true by apply prefix_nil. by destruct (N.ltb_spec 0 (i_len y)); [|lia].
Qed.

(** tree64: the entry claimed or updated last is returned, after every history that
    has not panicked. *)
Lemma C37_tree64_last_claim_partial_pf : forall (L : Type) (lstr : L -> string) (n : N) (os : list (gop L)) x (l : L) o g rs,
  n <= 64 -> Forall (gop_ok cfg_tree64) os ->
  gid_ok cfg_tree64 x -> i_id x < 2 ^ n -> o = GClaimID x l \/ o = GUpdate x l ->
  (do g <- g_new cfg_tree64 n; g_run lstr cfg_tree64 g (os ++ [o])) = Ok (g, rs) ->
  g_get g x = Ok (TEntry (i_id x) (i_len x) l).
Proof.
  intros L lstr n os x l o g rs Hn Hok Hx Hnx Ho Hrun.
  pose proof (C74_tree64_exact_pf L lstr n (os ++ [o]) Hn) as H. rewrite one_run_app in H.
  assert (Hstep : forall st, one_step n st o = Some (one_claim st x l, GDone)).
  { intros st. destruct Ho as [-> | ->]; cbn [one_step]; by rewrite not_full. }
  assert (Hok' : Forall (gop_ok cfg_tree64) (os ++ [o])).
  { apply Forall_app. split; [done|]. constructor; [|done]. by destruct Ho as [-> | ->]. }
  specialize (H Hok'). destruct (one_run n (∅, None) os) as [[st rs0]|]; [|by rewrite Hrun in H].
  cbn [one_run fst snd] in H. rewrite Hstep in H. cbn [fst snd] in H. destruct H as (g' & Hg' & Hs). rewrite Hrun in Hg'. injection Hg' as <- _.
  destruct Hs as (_ & _ & Hget & _). rewrite Hget. unfold one_get, one_claim. cbn [fst snd]. rewrite bool_decide_false by set_solver.
  unfold same_id. cbn. by rewrite !N.eqb_refl.
Qed.

(* ------------------------------------------------------------------ C49 *)
Lemma fold_claims {L} (l : L) ids y : forall st : one L,
  snd (fold_left (fun st x => one_claim st x l) (ids ++ [y]) st) = Some (TEntry (i_id y) (i_len y) l) /\
  fst (fold_left (fun st x => one_claim st x l) (ids ++ [y]) st) <> ∅.
Proof. intros st. rewrite fold_left_app. cbn. split; [done|]. set_solver. Qed.

(** The entry after a ClaimRange. *)
Lemma range_seen {L} (lstr : L -> string) (n : N) (os : list (gop L)) g rs s (l : L) r ids y :
  n <= 64 -> Forall (gop_ok cfg_tree64) os ->
  (do g <- g_new cfg_tree64 n; g_run lstr cfg_tree64 g (os ++ [GClaimRange s l])) = Ok (g, rs) ->
  parse_range cfg_id64 s = Ok r -> range_ids cfg_id64 r = Ok (ids ++ [y]) ->
  last rs = Some GDone /\
  g_get g y = Ok (TEntry (i_id y) (i_len y) l) /\ (forall x, x <> y -> g_get g x = Err ENotFound).
Proof.
  intros Hn Hok Hrun Hp Hids.
  pose proof (C74_tree64_exact_pf L lstr n (os ++ [GClaimRange s l]) Hn) as H. rewrite one_run_app in H.
  assert (Hok' : Forall (gop_ok cfg_tree64) (os ++ [GClaimRange s l])) by (apply Forall_app; split; [done|by constructor]).
  specialize (H Hok'). destruct (one_run n (∅, None) os) as [[st rs0]|]; [|by rewrite Hrun in H].
  cbn [one_run one_step fst snd] in H. rewrite Hp in H. cbn [fst snd] in H.
  assert (Hrp : range_prefixes cfg_tree64 s = ids ++ [y]).
  { unfold range_prefixes. change (gc_id cfg_tree64) with cfg_id64. by rewrite Hp, Hids. }
  rewrite Hrp in H. destruct H as (g' & Hg' & Hs). rewrite Hrun in Hg'. injection Hg' as <- ->.
  split; [apply last_snoc|]. destruct Hs as (_ & _ & Hget & _). rewrite Hget. setoid_rewrite Hget. unfold one_get.
  destruct (fold_claims l ids y st) as [Hsnd Hfst].
  set (st' := fold_left _ _ _) in *. clearbody st'. rewrite bool_decide_false, Hsnd by done.
  unfold same_id. cbn [te_id te_len]. split; [by rewrite !N.eqb_refl|].
  intros [xi xl] E. destruct y as [yi yl]. cbn [i_id i_len].
  destruct (N.eqb_spec yi xi) as [->|]; [|done]. destruct (N.eqb_spec yl xl) as [->|]; [|done]. by destruct E.
Qed.

(** tree64: of the prefixes of the range, Get finds the last one only. *)
Lemma C49_tree64_only_last_prefix_refuted_pf : forall (L : Type) (lstr : L -> string) (n : N) (os : list (gop L)) g rs s (l : L) a b,
  n <= 64 -> Forall (gop_ok cfg_tree64) os ->
  (do g <- g_new cfg_tree64 n; g_run lstr cfg_tree64 g (os ++ [GClaimRange s l])) = Ok (g, rs) ->
  parse_range cfg_id64 s = Ok (range_from cfg_id64 a b) -> a <= b -> ~ id64_bad_range a b ->
  last rs = Some GDone /\
  exists ids y, is_decomposition 64 ids a b /\ last ids = Some y /\
    g_get g y = Ok (TEntry (i_id y) (i_len y) l) /\ (forall x, x <> y -> g_get g x = Err ENotFound).
Proof.
  intros L lstr n os g rs s l a b Hn Hok Hrun Hp Hab Hbad.
  assert (Hb : b < 2 ^ 64).
  { pose proof (proj1 (proj1 (C26_parse_range_pf cfg_id64 s _ c64_all)) Hp) as (f & t & _ & _ & _ & _ & _ & _ & Ht & E).
    by injection E as _ ->. }
  destruct (proj2 (C24_id64_exactly_outside_bad_ranges_partial_pf a b Hab Hb) Hbad) as (ids & Hids & Hdec).
  destruct (range_ids_64 a b ltac:(lia) Hb) as (ids' & Hids' & Hne & _). rewrite Hids in Hids'. injection Hids' as <-.
  destruct (exists_last Hne) as (ids' & y & ->).
  destruct (range_seen lstr n os g rs s l _ ids' y Hn Hok Hrun Hp Hids) as [H1 H2].
  split; [done|]. exists (ids' ++ [y]), y. split; [done|]. split; [apply last_snoc|done].
Qed.

(* ------------------------------------------------------------------ C77 *)
(** tree64: a reversed range is not refused either; its last prefix becomes the
    entry of the tree. *)
Lemma C77_tree64_reversed_claim_range_refuted_pf : forall (L : Type) (lstr : L -> string) (n : N) (os : list (gop L)) g rs s (l : L) a b,
  n <= 64 -> Forall (gop_ok cfg_tree64) os ->
  (do g <- g_new cfg_tree64 n; g_run lstr cfg_tree64 g (os ++ [GClaimRange s l])) = Ok (g, rs) ->
  parse_range cfg_id64 s = Ok (range_from cfg_id64 a b) -> b < a ->
  last rs = Some GDone /\ exists y, g_get g y = Ok (TEntry (i_id y) (i_len y) l).
Proof.
  intros L lstr n os g rs s l a b Hn Hok Hrun Hp Hab.
  assert (H : a < 2 ^ 64 /\ b < 2 ^ 64).
  { pose proof (proj1 (proj1 (C26_parse_range_pf cfg_id64 s _ c64_all)) Hp) as (f & t & _ & _ & _ & _ & _ & Hf & Ht & E).
    by injection E as -> ->. }
  destruct H as [Ha Hb]. destruct (range_ids_64 a b Ha Hb) as (ids & Hids & Hne & _).
  destruct (exists_last Hne) as (ids' & y & ->).
  destruct (range_seen lstr n os g rs s l _ ids' y Hn Hok Hrun Hp Hids) as [H1 H2].
  split; [done|]. exists y. apply H2.
Qed.
