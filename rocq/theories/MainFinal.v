(** Proofs of the property statements about test/main.go. *)
From Verif Require Import MainModel MainSpec GTreeProofs GTreeFinal.
From Verif Require Import TreeSpec GTreeSpec.
From Coq Require Import Lia ZifyBool ZifyNat ZifyN.
From Coq Require Strings.String.
Import Coq.Strings.String.StringSyntax.
Local Open Scope string_scope.
Local Open Scope N_scope.

Fixpoint count_from (v : N) (k : nat) : list N :=
  match k with O => [] | S k' => v :: count_from (v + 1) k' end.
Lemma count_from_seq k : forall j, count_from (N.of_nat j) k = N.of_nat <$> seq j k.
Proof.
  induction k as [|k IH]; intros j; [done|]. cbn [count_from seq fmap list_fmap]. f_equal.
  rewrite <- IH. f_equal. lia.
Qed.
Lemma ids_below_count k : ids_below k = count_from 0 k.
Proof. unfold ids_below. by rewrite <- count_from_seq. Qed.
Lemma in16 : cfg_tree16 ∈ g_packages_16_32. Proof. left. Qed.
Lemma in32 : cfg_tree32 ∈ g_packages_16_32. Proof. right. left. Qed.

(* ------------------------------------------------------------------ C89 *)
Lemma get_cases n m (g : mtree) x : g_hist any_op cfg_tree16 n m g -> gid_ok cfg_tree16 x ->
  (exists e, g_get g x = Ok e) \/ g_get g x = Err ENotFound.
Proof.
  intros Hh Hx. rewrite (C37_get_partial_pf _ _ _ _ _ _ x in16 Hh Hx).
  destruct (lookup_id cfg_tree16 m x); [left; by eexists|by right].
Qed.

(** handleId on a tree16 in any state: it panics exactly if the id is claimed
    already or above the size of the tree.  Otherwise it claims the id without
    labels, changes nothing else, and prints the entries that contain the id. *)
Lemma C89_handle_id_pf : forall (n : N) (m : record labels) (g : mtree) (v : N),
  g_hist any_op cfg_tree16 n m g -> v < 2 ^ 16 ->
  (handle_id g v = Panic <-> (exists e, g_get g (MyId v 16) = Ok e) \/ 2 ^ n <= v) /\
  (handle_id g v <> Panic ->
   exists g' es ps, handle_id g v = Ok (g', [LErr ENotFound; LParents (Some <$> ps)]) /\
     g_get g' (MyId v 16) = Ok (TEntry v 16 ∅) /\
     (forall y, gid_ok cfg_tree16 y -> prefix 16 y <> prefix 16 (MyId v 16) -> g_get g' y = g_get g y) /\
     g_get_all g = Ok (Some <$> es) /\
     forall e, e ∈ ps <-> e ∈ es /\ te_len e < 16 /\ covers 16 (eid e) v).
Proof.
  intros n m g v Hh Hv. set (x := MyId v 16).
  assert (Hx : gid_ok cfg_tree16 x) by done.
  assert (Hroom : g_room cfg_tree16 m (GClaimID x (∅ : labels))) by (by left).
  destruct (get_cases n m g x Hh Hx) as [[e He]|Hn].
  { assert (E : handle_id g v = Panic) by (unfold handle_id; fold x; by rewrite He).
    rewrite E. split; [|done]. split; [|done]. intros _. left. by exists e. }
  destruct (N.le_gt_cases (2 ^ n) v) as [Hbig|Hsmall].
  { assert (E : handle_id g v = Panic).
    { unfold handle_id. fold x. rewrite Hn.
      destruct (C39_claims_above_refused_partial_pf _ label_string _ _ _ _ x (∅ : labels) in16 Hh Hx Hbig) as [Hc _].
      cbn [g_step] in Hc. destruct (g_claim_id cfg_tree16 g x ∅) as [g'|e'|] eqn:Hci; cbn [done_or_err] in Hc; [done| |done].
      cbn [rbind fst snd]. by rewrite Hn. }
    rewrite E. split; [|done]. split; [by right|done]. }
  destruct (C59_calls_return_partial_pf _ label_string _ _ _ _ (GClaimID x (∅ : labels)) in16 Hh Hx Hroom)
    as (g' & r & Hs & Hr & Hh').
  cbn [returns] in Hr. destruct (N.leb_spec (2 ^ n) (i_id x)) as [H|_]; [cbn in H; lia|]. subst r.
  pose proof (C37_claim_then_get_partial_pf _ label_string _ _ _ _ (GClaimID x (∅ : labels)) x ∅ g' in16 Hh
    (or_introl eq_refl) Hx Hroom Hs) as Hg'.
  destruct (C42_listings_partial_pf _ _ _ _ _ _ in16 Hh) as (es & Hall & _ & Hes & _).
  destruct (C42_listings_partial_pf _ _ _ _ _ _ in16 Hh') as (es' & Hall' & _ & Hes' & _).
  destruct (C44_parents_partial_pf _ _ _ _ _ _ x es' in16 Hh' Hx Hall') as (ps & Hps & Hps1 & Hps2).
  change (gw cfg_tree16) with 16 in *. specialize (Hps2 eq_refl). cbn [x i_len] in Hps1, Hps2. fold x in Hps1, Hps2.
  assert (E : handle_id g v = Ok (g', [LErr ENotFound; LParents (Some <$> ps)])).
  { unfold handle_id. fold x. rewrite Hn. cbn [g_step] in Hs.
    destruct (g_claim_id cfg_tree16 g x ∅) as [g1|e1|]; cbn [done_or_err] in Hs; [|done|done]. injection Hs as ->.
    cbn [rbind fst snd]. rewrite Hg'. cbn [must rbind]. by rewrite Hps. }
  rewrite E. split.
  { split; [done|]. intros [[e He]|H]; [|lia]. by rewrite He in Hn. }
  intros _. exists g', es, ps. split; [done|]. split; [exact Hg'|]. split.
  { intros y Hy Hne.
    apply (C37_other_prefixes_partial_pf _ label_string _ _ _ _ (GClaimID x (∅ : labels)) g' GDone y in16 Hh Hx Hroom Hs Hy Hne). }
  split; [done|]. intros e.
  assert (Hsame : te_len e < 16 -> e ∈ es' <-> e ∈ es).
  { intros Hlen. rewrite Hes, Hes'. cbn [after]. rewrite lookup_insert_ne; [done|].
    change (gw cfg_tree16) with 16. intros Hp. apply (f_equal length) in Hp. rewrite !TreeBits.prefix_length in Hp.
    cbn [eid x i_len] in Hp. lia. }
  assert (Hcov : e ∈ es -> te_len e < 16 -> prefix 16 (eid e) `prefix_of` prefix 16 x <-> covers 16 (eid e) v).
  { intros Hin Hlen. apply Hes in Hin. destruct (gi_ok _ _ _ _ (hist_G cfg_tree16 in16 _ _ _ _ Hh) _ _ Hin) as [_ Hok].
    rewrite prefix_of_covers; [|apply Hok|done|apply Hok|done]. cbn [eid x i_len i_id]. split; [intros [_ ?]; done|].
    intros ?; split; [lia|done]. }
  split.
  - intros Hin. destruct (Hps2 e Hin) as (H1 & H2 & H3). assert (He : e ∈ es) by (by apply Hsame).
    split; [done|]. split; [done|]. by apply Hcov.
  - intros (H1 & H2 & H3). apply Hps1; [by apply Hsame|done|by apply Hcov].
Qed.

(* ------------------------------------------------------------------ C90 *)
Lemma claim_step (P : Prop) n m (g : mtree) v l :
  g_hist any_op cfg_tree16 n m g -> v < 2 ^ 16 ->
  (v < 2 ^ n -> forall g', g_claim_id cfg_tree16 g (MyId v 16) l = Ok g' ->
     g_hist any_op cfg_tree16 n (<[prefix 16 (MyId v 16) := TEntry v 16 l]> m) g' -> P) ->
  (2 ^ n <= v -> g_claim_id cfg_tree16 g (MyId v 16) l = Err EMaxId -> P) -> P.
Proof.
  intros Hh Hv H1 H2.
  destruct (C59_calls_return_partial_pf _ label_string _ _ _ _ (GClaimID (MyId v 16) l) in16 Hh (conj Hv (N.le_refl 16)) (or_introl eq_refl))
    as (g' & r & Hs & Hr & Hh').
  cbn [returns i_id] in Hr. cbn [g_step] in Hs.
  destruct (N.leb_spec (2 ^ n) v) as [H|H]; subst r;
    destruct (g_claim_id cfg_tree16 g (MyId v 16) l) as [g1|e1|] eqn:E; cbn [done_or_err] in Hs; try done.
  - injection Hs as -> ->. by apply H2.
  - injection Hs as ->. apply (H1 H g' eq_refl). cbn [after i_id i_len] in Hh'. exact Hh'.
Qed.

Lemma claim_loop_ok n k : forall m (g : mtree) v, g_hist any_op cfg_tree16 n m g ->
  v + N.of_nat k <= 2 ^ n -> v + N.of_nat k <= 2 ^ 16 ->
  exists m' g', claim_loop g k v = Ok (g', LClaimed <$> count_from v k) /\ g_hist any_op cfg_tree16 n m' g' /\
    (forall y, i_id y < 2 ^ 16 -> i_len y <= 16 -> lookup_id cfg_tree16 m' y =
      if (i_len y =? 16) && (v <=? i_id y) && (i_id y <? v + N.of_nat k)
      then Some (TEntry (i_id y) 16 (id_label (i_id y))) else lookup_id cfg_tree16 m y).
Proof.
  induction k as [|k IH]; intros m g v Hh Hk Hk'.
  { exists m, g. split; [done|]. split; [done|]. intros y Hy Hl.
    destruct (N.leb_spec v (i_id y)), (N.ltb_spec (i_id y) (v + N.of_nat 0)); try lia; by rewrite ?andb_false_r. }
  assert (Hw : uwrap 16 v = v) by (apply N.mod_small; lia).
  cbn [claim_loop count_from fmap list_fmap]. rewrite Hw.
  apply (claim_step _ n m g v (id_label v) Hh); [lia| |lia].
  intros _ g1 -> Hh1. cbn [must rbind].
  destruct (IH _ g1 (v + 1) Hh1) as (m' & g' & -> & Hh' & Hm'); [lia..|].
  exists m', g'. split; [done|]. split; [done|]. intros y Hy Hl. rewrite Hm' by done.
  destruct (N.eqb_spec (i_len y) 16) as [El|El]; cbn [andb].
  2:{ unfold lookup_id. rewrite lookup_insert_ne; [done|]. change (gw cfg_tree16) with 16.
      intros Hp. apply (f_equal length) in Hp. rewrite !TreeBits.prefix_length in Hp. cbn [i_len] in Hp. lia. }
  destruct (decide (i_id y = v)) as [Ev|Ev].
  - destruct (N.leb_spec (v + 1) (i_id y)); [lia|]. cbn [andb].
    destruct (N.leb_spec v (i_id y)); [|lia]. destruct (N.ltb_spec (i_id y) (v + N.of_nat (S k))); [|lia]. cbn [andb].
    destruct y as [yi yl]; cbn [i_id i_len] in *. subst yi yl. unfold lookup_id.
    change (gw cfg_tree16) with 16. rewrite lookup_insert.
    by rewrite (proj2 (same_id_eid (TEntry v 16 (id_label v)) (MyId v 16)) eq_refl).
  - assert (E : (v + 1 <=? i_id y) && (i_id y <? v + 1 + N.of_nat k) = (v <=? i_id y) && (i_id y <? v + N.of_nat (S k))).
    { clear - Ev. lia. }
    rewrite E. clear E. destruct ((v <=? i_id y) && (i_id y <? v + N.of_nat (S k))); [reflexivity|]. unfold lookup_id. rewrite lookup_insert_ne; [done|].
    change (gw cfg_tree16) with 16. intros Hp. apply Ev. destruct y as [yi yl]; cbn [i_id i_len] in *. subst yl.
    apply (canonical_prefix_inj 16) in Hp; [by injection Hp|..];
      (split; [done|]; split; [cbn [i_id]; lia|]; cbn [i_id i_len]; by rewrite N.sub_diag, N.mod_1_r).
Qed.

Lemma new16 n : n <= 16 -> exists g0 : mtree, g_new cfg_tree16 n = Ok g0.
Proof. intros Hn. unfold g_new. change (gw cfg_tree16) with 16. destruct (N.ltb_spec 16 n); [lia|]. by eexists. Qed.
Lemma claim_loop_app k1 k2 : forall (g : mtree) v, claim_loop g (k1 + k2) v =
  (do a <- claim_loop g k1 v; do b <- claim_loop (fst a) k2 (v + N.of_nat k1); Ok (fst b, snd a ++ snd b)).
Proof.
  induction k1 as [|k1 IH]; intros g v; cbn [Nat.add claim_loop rbind].
  - rewrite N.add_0_r. cbn [fst snd app]. by destruct (claim_loop g k2 v) as [[? ?]|?|].
  - destruct (must _) as [g'|e|]; cbn [rbind]; [|done..]. rewrite IH.
    replace (v + 1 + N.of_nat k1) with (v + N.of_nat (S k1)) by lia.
    destruct (claim_loop g' k1 (v + 1)) as [[? ?]|?|]; cbn [rbind fst snd]; [|done..].
    by destruct (claim_loop _ k2 _) as [[? ?]|?|].
Qed.

Lemma claim_loop_aux : forall (n : N) (k : nat), n <= 16 -> N.of_nat k <= 2 ^ 16 ->
  exists g0, g_new cfg_tree16 n = Ok g0 /\
  (2 ^ n < N.of_nat k -> claim_loop g0 k 0 = Panic) /\
  (N.of_nat k <= 2 ^ n -> exists g, claim_loop g0 k 0 = Ok (g, LClaimed <$> ids_below k) /\
    forall y, gid_ok cfg_tree16 y -> g_get g y =
      if (i_len y =? 16) && (i_id y <? N.of_nat k) then Ok (TEntry (i_id y) 16 (id_label (i_id y))) else Err ENotFound).
Proof.
  intros n k Hn Hk. destruct (new16 n Hn) as [g0 H0]. exists g0. split; [done|].
  pose proof (hist_new any_op cfg_tree16 n g0 H0) as Hh. split.
  - intros Hp. set (p := N.to_nat (2 ^ n)).
    assert (Hp' : N.of_nat p = 2 ^ n) by apply N2Nat.id.
    replace k with (p + S (k - p - 1))%nat by lia. rewrite claim_loop_app.
    destruct (claim_loop_ok n p _ g0 0 Hh) as (m' & g' & -> & Hh' & _); [lia..|]. cbn [rbind fst].
    cbn [claim_loop]. rewrite N.add_0_l, Hp'. unfold uwrap. rewrite N.mod_small by lia.
    apply (claim_step _ n m' g' (2 ^ n) (id_label (2 ^ n)) Hh'); [lia|lia|]. by intros _ ->.
  - intros Hle. destruct (claim_loop_ok n k _ g0 0 Hh) as (m' & g' & H1 & Hh' & Hm); [lia..|].
    exists g'. rewrite ids_below_count. split; [done|]. intros y Hy.
    rewrite (C37_get_partial_pf _ _ _ _ _ _ y in16 Hh' Hy), Hm by apply Hy. rewrite N.add_0_l.
    replace (0 <=? i_id y) with true by lia. rewrite andb_true_r.
    destruct (_ && _); [done|]. unfold lookup_id. by rewrite lookup_empty.
Qed.
(** The loop of main with ClaimID on a new tree16 of 2^n ids.  With at most 2^n
    turns it does not panic, and then the ids below k are claimed, each with its
    label, and no other; with more turns it panics. *)
Lemma C90_claim_loop_pf : forall (n : N) (k : nat), n <= 16 -> N.of_nat k <= 2 ^ 16 ->
  exists g0, g_new cfg_tree16 n = Ok g0 /\
  (2 ^ n < N.of_nat k -> claim_loop g0 k 0 = Panic) /\
  (N.of_nat k <= 2 ^ n -> exists g, claim_loop g0 k 0 = Ok (g, LClaimed <$> ids_below k) /\
    forall y, gid_ok cfg_tree16 y -> g_get g y =
      if (i_len y =? 16) && (i_id y <? N.of_nat k) then Ok (TEntry (i_id y) 16 (numbered (i_id y))) else Err ENotFound).
Proof. exact claim_loop_aux. Qed.

(* the loops with ClaimFree as runs *)
Definition line_of (r : gres labels) : line :=
  match r with GEntry e => LEntry (eid e) (te_labels e) | _ => LErr EMaxId end.
Definition is_entry (r : gres labels) : Prop := match r with GEntry _ => True | _ => False end.
Lemma claim_free_run k : forall (g : mtree) v g' rs,
  g_run label_string cfg_tree16 g (map GClaimFree (id_label <$> count_from v k)) = Ok (g', rs) -> Forall is_entry rs ->
  claim_free_loop g k v = Ok (g', line_of <$> rs).
Proof.
  induction k as [|k IH]; intros g v g' rs Hr Hf.
  { cbn in Hr. by injection Hr as <- <-. }
  cbn [count_from fmap list_fmap map g_run g_step] in Hr. cbn [claim_free_loop].
  destruct (g_claim_free cfg_tree16 g (id_label v)) as [[g1 e1]|e|] eqn:E; cbn [rbind fst snd] in Hr; [| |done].
  - destruct (g_run label_string cfg_tree16 g1 _) as [[g2 rs2]|e2|] eqn:E2; cbn [rbind fst snd] in Hr; [|done..].
    injection Hr as <- <-. apply Forall_cons in Hf as [_ Hf]. cbn [must rbind fst snd].
    by rewrite (IH _ _ _ _ E2 Hf).
  - destruct (g_run label_string cfg_tree16 g _) as [[g2 rs2]|e2|] eqn:E2; cbn [rbind fst snd] in Hr; [|done..].
    injection Hr as <- <-. by apply Forall_cons in Hf as [[] _].
Qed.
Lemma claim_free_panics k : forall (g : mtree) v g' rs,
  g_run label_string cfg_tree16 g (map GClaimFree (id_label <$> count_from v k)) = Ok (g', rs) -> ~ Forall is_entry rs ->
  claim_free_loop g k v = Panic.
Proof.
  induction k as [|k IH]; intros g v g' rs Hr Hf.
  { cbn in Hr. injection Hr as <- <-. by destruct Hf. }
  cbn [count_from fmap list_fmap map g_run g_step] in Hr. cbn [claim_free_loop].
  destruct (g_claim_free cfg_tree16 g (id_label v)) as [[g1 e1]|e|] eqn:E; cbn [rbind fst snd] in Hr; [|done..].
  destruct (g_run label_string cfg_tree16 g1 _) as [[g2 rs2]|e2|] eqn:E2; cbn [rbind fst snd] in Hr; [|done..].
  injection Hr as <- <-. cbn [must rbind fst snd].
  rewrite (IH _ _ _ _ E2); [done|]. intros H. apply Hf. by constructor.
Qed.
Definition try_line (v : N) (r : gres labels) : line :=
  match r with GEntry e => LEntry (eid e) (te_labels e) | GErr e => LFailed v e | GDone => LClaimed v end.
Lemma try_run k : forall (g : mtree) v g' rs,
  g_run label_string cfg_tree32 g (map GClaimFree (id_label <$> count_from v k)) = Ok (g', rs) ->
  try_loop g k v = Ok (g', zip_with try_line (count_from v k) rs).
Proof.
  induction k as [|k IH]; intros g v g' rs Hr.
  { cbn in Hr. by injection Hr as <- <-. }
  cbn [count_from fmap list_fmap map g_run g_step] in Hr. cbn [try_loop].
  destruct (g_claim_free cfg_tree32 g (id_label v)) as [[g1 e1]|e|] eqn:E; cbn [rbind fst snd] in Hr; [| |done].
  - destruct (g_run label_string cfg_tree32 g1 _) as [[g2 rs2]|e2|] eqn:E2; cbn [rbind fst snd] in Hr; [|done..].
    injection Hr as <- <-. cbn [fst snd]. by rewrite (IH _ _ _ _ E2).
  - destruct (g_run label_string cfg_tree32 g _) as [[g2 rs2]|e2|] eqn:E2; cbn [rbind fst snd] in Hr; [|done..].
    injection Hr as <- <-. by rewrite (IH _ _ _ _ E2).
Qed.

Lemma lines_of k w rs : length rs = k ->
  (forall i l, (id_label <$> ids_below k) !! i = Some l -> rs !! i = Some (GEntry (TEntry (N.of_nat i) w l))) ->
  Forall is_entry rs /\ line_of <$> rs = (fun i => LEntry (MyId i w) (id_label i)) <$> ids_below k.
Proof.
  intros Hl H.
  assert (Hi : forall i, (i < k)%nat -> rs !! i = Some (GEntry (TEntry (N.of_nat i) w (id_label (N.of_nat i))))).
  { intros i Hi. apply H. unfold ids_below. rewrite !list_lookup_fmap, lookup_seq_lt by done. done. }
  split.
  - apply Forall_lookup. intros i r Hr. pose proof (lookup_lt_Some _ _ _ Hr) as Hlt. rewrite Hi in Hr by lia.
    injection Hr as <-. done.
  - apply list_eq. intros i. unfold ids_below. rewrite !list_lookup_fmap.
    destruct (decide (i < k)%nat) as [Hlt|Hge].
    + rewrite Hi, lookup_seq_lt by done. done.
    + rewrite (lookup_ge_None_2 rs) by lia. rewrite lookup_seq_ge by lia. done.
Qed.

Lemma label_below k i l : (id_label <$> ids_below k) !! i = Some l -> (i < k)%nat.
Proof. intros H. apply lookup_lt_Some in H. unfold ids_below in H. by rewrite !fmap_length, seq_length in H. Qed.
Lemma labels_below k i : (i < k)%nat -> (id_label <$> ids_below k) !! i = Some (id_label (N.of_nat i)).
Proof. intros Hi. unfold ids_below. rewrite !list_lookup_fmap, lookup_seq_lt by done. done. Qed.
Lemma labels_length k : length (id_label <$> ids_below k) = k.
Proof. unfold ids_below. by rewrite !fmap_length, seq_length. Qed.

Lemma claim_free_loop_aux : forall (n : N) (k : nat), 1 <= n <= 16 ->
  exists g0, g_new cfg_tree16 n = Ok g0 /\
    (2 ^ n < N.of_nat k -> claim_free_loop g0 k 0 = Panic) /\
    (N.of_nat k <= 2 ^ n ->
     exists g, claim_free_loop g0 k 0 = Ok (g, (fun i => LEntry (MyId i 16) (id_label i)) <$> ids_below k)).
Proof.
  intros n k Hn.
  destruct (C79_tree16_in_order_pf _ label_string n (id_label <$> ids_below k) Hn) as (g0 & g & rs & H0 & Hr & Hl & Hi).
  exists g0. split; [done|]. rewrite labels_length in Hl. split; intros Hk.
  - apply (claim_free_panics k g0 0 g rs); [by rewrite <- ids_below_count|]. intros Hf.
    assert (Hlt : (N.to_nat (2 ^ n) < k)%nat) by lia.
    pose proof (Hi _ _ (labels_below k _ Hlt)) as H. rewrite N2Nat.id, N.ltb_irrefl in H.
    by apply (Forall_lookup_1 _ _ _ _ Hf) in H.
  - destruct (lines_of k 16 rs Hl) as [H1 H2].
    { intros i l Hil. rewrite (Hi i l Hil). apply label_below in Hil.
      destruct (N.ltb_spec (N.of_nat i) (2 ^ n)); [done|lia]. }
    exists g. rewrite <- H2. apply claim_free_run; [|done]. by rewrite <- ids_below_count.
Qed.
(** The loop of main with ClaimFree on a new tree16 of 2^n ids, n at least 1: the
    i-th turn gets the id i, with its label, and after 2^n turns the next panics. *)
Lemma C90_claim_free_loop_pf : forall (n : N) (k : nat), 1 <= n <= 16 ->
  exists g0, g_new cfg_tree16 n = Ok g0 /\
    (2 ^ n < N.of_nat k -> claim_free_loop g0 k 0 = Panic) /\
    (N.of_nat k <= 2 ^ n ->
     exists g, claim_free_loop g0 k 0 = Ok (g, (fun i => LEntry (MyId i 16) (numbered i)) <$> ids_below k)).
Proof. exact claim_free_loop_aux. Qed.

Lemma size_after_all os : forall (m : record labels) rs,
  (size (after_all cfg_tree32 m os rs) <= size m + growth_all cfg_tree32 os)%nat.
Proof.
  induction os as [|o os IH]; intros m rs; [cbn; lia|]. destruct rs as [|r rs]; cbn [after_all]; [lia|].
  change (growth_all cfg_tree32 (o :: os)) with (growth cfg_tree32 o + growth_all cfg_tree32 os)%nat.
  specialize (IH (after cfg_tree32 m o r) rs). pose proof (size_after cfg_tree32 m o r). lia.
Qed.
Lemma growth_frees (ls : list labels) : growth_all cfg_tree32 (map GClaimFree ls) = length ls.
Proof. induction ls as [|l ls IH]; [done|]. unfold growth_all in *. cbn. f_equal. exact IH. Qed.

(* the same loop, and the state it leaves *)
Lemma try_loop_full n k : n <= 31 ->
  exists g0 g, g_new cfg_tree32 n = Ok g0 /\
    try_loop g0 k 0 = Ok (g, (fun i => if i <? 2 ^ N.min n (32 - n) then LEntry (MyId i 32) (id_label i)
                                       else LFailed i (if n <? 16 then EMaxId else ENoFreeId)) <$> ids_below k) /\
    (N.of_nat k + 2 <= 2 ^ 31 -> exists m, (size m <= k)%nat /\ g_hist any_op cfg_tree32 n m g).
Proof.
  intros Hn.
  destruct (C79_tree32_in_order_pf _ label_string n (id_label <$> ids_below k) Hn) as (g0 & g & rs & H0 & Hr & Hl & Hi).
  exists g0, g. split; [done|]. rewrite labels_length in Hl. split.
  - rewrite (try_run k g0 0 g rs); [|by rewrite <- ids_below_count]. f_equal. f_equal. rewrite <- ids_below_count.
    apply list_eq. intros i. rewrite lookup_zip_with, list_lookup_fmap.
    destruct (decide (i < k)%nat) as [Hlt|Hge].
    + rewrite (Hi _ _ (labels_below k i Hlt)). unfold ids_below. rewrite list_lookup_fmap, lookup_seq_lt by done.
      cbn [fmap option_fmap option_map mbind option_bind]. rewrite Nat.add_0_l.
      by destruct (N.of_nat i <? 2 ^ N.min n (32 - n)).
    + unfold ids_below. rewrite list_lookup_fmap, lookup_seq_ge by lia. done.
  - intros Hk.
    destruct (C59_runs_return_partial_pf _ label_string any_op cfg_tree32 n (map GClaimFree (id_label <$> ids_below k)) g0 in32 H0)
      as (g' & rs' & Hr' & Hh').
    + apply Forall_fmap, Forall_true. done.
    + by apply Forall_true.
    + right. rewrite growth_frees, labels_length. done.
    + rewrite Hr in Hr'. injection Hr' as <- <-. eexists. split; [|exact Hh'].
      etrans; [apply size_after_all|]. by rewrite map_size_empty, growth_frees, labels_length.
Qed.

Lemma try_loop_aux : forall (n : N) (k : nat), n <= 31 ->
  exists g0 g, g_new cfg_tree32 n = Ok g0 /\
    try_loop g0 k 0 = Ok (g, (fun i => if i <? 2 ^ N.min n (32 - n) then LEntry (MyId i 32) (id_label i)
                                       else LFailed i (if n <? 16 then EMaxId else ENoFreeId)) <$> ids_below k).
Proof. intros n k Hn. destruct (try_loop_full n k Hn) as (g0 & g & H1 & H2 & _). by exists g0, g. Qed.
(** The same loop on a new tree32 of 2^n ids goes on after an error.  With n at
    most 16 the i-th turn gets the id i as long as there is one. *)
Lemma C90_try_loop_pf : forall (n : N) (k : nat), n <= 31 ->
  exists g0 g, g_new cfg_tree32 n = Ok g0 /\
    try_loop g0 k 0 = Ok (g, (fun i => if i <? 2 ^ N.min n (32 - n) then LEntry (MyId i 32) (numbered i)
                                       else LFailed i (if n <? 16 then EMaxId else ENoFreeId)) <$> ids_below k).
Proof. exact try_loop_aux. Qed.

Lemma range_list : map_to_list range_label = [("range", "test")].
Proof. vm_compute. reflexivity. Qed.
(* the part of main after the loops *)
Definition tail_of (g : mtree) : res (list line) :=
  do g <- match g_claim_range cfg_tree16 g "1000-2000" range_label with Ok g' => Ok g' | Err _ => Ok g | Panic => Panic end;
  do d <- handle_id g 1000; do e <- handle_id (fst d) 100; Ok (snd d ++ snd e).
Lemma tail_eq : (do g <- g_new cfg_tree16 12; tail_of g) =
  Ok [LErr ENotFound; LParents [Some (TEntry 1000 13 range_label)]; LErr ENotFound; LParents []].
Proof. vm_compute. reflexivity. Qed.
Lemma tail_bind (g : mtree) (h : list line -> list line) ls : tail_of g = Ok ls ->
  (do g <- match g_claim_range cfg_tree16 g "1000-2000" range_label with Ok g' => Ok g' | Err _ => Ok g | Panic => Panic end;
   do d <- handle_id g 1000; do e <- handle_id (fst d) 100; Ok (h (snd d ++ snd e))) = Ok (h ls).
Proof.
  unfold tail_of.
  destruct (match g_claim_range cfg_tree16 g "1000-2000" range_label with Ok g' => Ok g' | Err _ => Ok g | Panic => Panic end) as [g6|?|]; [|done..].
  cbn [rbind]. destruct (handle_id g6 1000) as [d|?|]; [|done..]. cbn [rbind].
  destruct (handle_id (fst d) 100) as [e|?|]; [|done..]. cbn [rbind]. by intros [= <-].
Qed.

Lemma main_turns_eq k valid : N.of_nat k = 4096 -> valid "range" "test" = true ->
  main_turns k valid = Ok (LLast (last_id cfg_id16 (MyId 0 (16 - 12))) :: (LClaimed <$> ids_below k) ++
    ((fun i => LEntry (MyId i 16) (id_label i)) <$> ids_below k) ++
    ((fun i => LEntry (MyId i 32) (id_label i)) <$> ids_below k) ++
    [LErr ENotFound; LParents [Some (TEntry 1000 13 range_label)]; LErr ENotFound; LParents []]).
Proof.
  intros Hk Hv. unfold main_turns. assert (H12 : 2 ^ 12 = 4096) by done.
  destruct (claim_loop_aux 12 k) as (g1 & E1 & _ & H1); [lia..|]. destruct H1 as (g1' & H1 & _); [lia|].
  destruct (claim_free_loop_aux 12 k) as (g2 & E2 & _ & H2); [lia|]. destruct H2 as (g2' & H2); [lia|].
  rewrite E1 in E2. injection E2 as <-.
  destruct (try_loop_full 12 k) as (g3 & g3' & E3 & H3 & H3'); [lia|].
  destruct H3' as (m & Hm & Hh); [lia|].
  assert (E4 : label_selector valid range_label =
    Some (fun m => forallb (fun kv => bool_decide (m !! kv.1 = Some kv.2)) (map_to_list range_label))).
  { unfold label_selector. rewrite range_list at 1. cbn [forallb fst snd]. by rewrite Hv. }
  destruct (C42_listings_partial_pf _ _ _ _ _ _ in32 Hh) as (es & Hes & _).
  destruct (C41_release_by_label_partial_pf _ label_string _ _ _ _
    (fun m => forallb (fun kv => bool_decide (m !! kv.1 = Some kv.2)) (map_to_list range_label)) es in32 Hh) as (g4 & H4 & _); [right; cbn [growth]; lia|done|].
  rewrite E1. cbn [must rbind]. rewrite H1. cbn [rbind fst snd]. rewrite H2. cbn [rbind fst snd].
  rewrite E3. cbn [must rbind]. rewrite H3. cbn [rbind fst snd]. rewrite E4.
  cbn [g_step] in H4. destruct (g_release_by_label _ _ _ _) as [g5|e5|]; cbn [done_or_err] in H4; [|done..].
  cbn [must rbind].
  assert (E5 : tail_of g1 = Ok [LErr ENotFound; LParents [Some (TEntry 1000 13 range_label)]; LErr ENotFound; LParents []]).
  { pose proof tail_eq as H. rewrite E1 in H. exact H. }
  match type of H3 with _ = Ok (_, ?lc) => set (lc0 := lc) in * end.
  pose proof (tail_bind g1 (fun ls => LLast (last_id cfg_id16 (MyId 0 (16 - 12))) :: (LClaimed <$> ids_below k) ++
    ((fun i => LEntry (MyId i 16) (id_label i)) <$> ids_below k) ++ lc0 ++ ls) _ E5) as H6.
  cbn beta in H6. rewrite H6. subst lc0. clear - Hk.
  assert (E6 : (fun i => if i <? 2 ^ N.min 12 (32 - 12) then LEntry (MyId i 32) (id_label i)
      else LFailed i (if 12 <? 16 then EMaxId else ENoFreeId)) <$> ids_below k =
      (fun i => LEntry (MyId i 32) (id_label i)) <$> ids_below k).
  { apply list_fmap_ext. intros j i Hi. unfold ids_below in Hi. rewrite list_lookup_fmap in Hi.
    destruct (seq 0 k !! j) as [x0|] eqn:Ex; [|done]. injection Hi as <-. apply lookup_seq in Ex as [-> Hx].
    change (2 ^ N.min 12 (32 - 12)) with 4096. destruct (N.ltb_spec (N.of_nat (0 + j)) 4096); [done|lia]. }
  by rewrite E6.
Qed.

Lemma main_aux : forall valid, valid "range" "test" = true ->
  main valid = Ok (LLast (MyId 4095 16) :: (LClaimed <$> ids_below (N.to_nat 4096)) ++
    ((fun i => LEntry (MyId i 16) (id_label i)) <$> ids_below (N.to_nat 4096)) ++
    ((fun i => LEntry (MyId i 32) (id_label i)) <$> ids_below (N.to_nat 4096)) ++
    [LErr ENotFound; LParents [Some (TEntry 1000 13 range_label)]; LErr ENotFound; LParents []]).
Proof.
  intros valid Hv. unfold main. rewrite (main_turns_eq (N.to_nat 4096) valid (N2Nat.id 4096) Hv).
  assert (E : last_id cfg_id16 (MyId 0 (16 - 12)) = MyId 4095 16) by reflexivity. by rewrite E.
Qed.
(** main does not panic, provided the label range=test makes a requirement, and
    this is what it prints. *)
Lemma C90_main_pf : forall valid, valid "range" "test" = true ->
  main valid = Ok (LLast (MyId 4095 16) :: (LClaimed <$> ids_below (N.to_nat 4096)) ++
    ((fun i => LEntry (MyId i 16) (numbered i)) <$> ids_below (N.to_nat 4096)) ++
    ((fun i => LEntry (MyId i 32) (numbered i)) <$> ids_below (N.to_nat 4096)) ++
    [LErr ENotFound; LParents [Some (TEntry 1000 13 range_test)]; LErr ENotFound; LParents []]).
Proof. exact main_aux. Qed.

(* ------------------------------------------------------------------ C91 *)
(** GetLabelSelector fails exactly if a pair of the map makes no requirement; its
    selector matches the label sets that include the map. *)
Lemma C91_selector_pf : forall (valid : string -> string -> bool) (l : labels),
  (label_selector valid l = None <-> exists k v, l !! k = Some v /\ valid k v = false) /\
  forall sel, label_selector valid l = Some sel -> forall m, sel m = true <-> l ⊆ m.
Proof.
  intros valid l. unfold label_selector. split.
  - destruct (forallb _ _) eqn:E.
    + split; [done|]. intros (k & v & Hk & Hv). rewrite forallb_forall in E.
      enough (valid k v = true) by congruence. apply (E (k, v)). by apply elem_of_list_In, elem_of_map_to_list.
    + split; [|done]. intros _. apply not_true_iff_false in E.
      destruct (decide (Exists (fun kv => valid kv.1 kv.2 = false) (map_to_list l))) as [H|H].
      * apply Exists_exists in H as ([k v] & Hin & Hv). exists k, v. split; [by apply elem_of_map_to_list|done].
      * destruct E. apply forallb_forall. intros kv Hin. apply elem_of_list_In in Hin.
        destruct (valid kv.1 kv.2) eqn:Ev; [done|]. destruct H. apply Exists_exists. by exists kv.
  - intros sel Hs m. destruct (forallb _ _) in Hs; [|done]. injection Hs as <-.
    rewrite forallb_forall. split.
    + intros H. apply map_subseteq_spec. intros k v Hk. specialize (H (k, v)). cbn [fst snd] in H. apply (bool_decide_eq_true_1 _ (H (proj1 (elem_of_list_In _ _) (proj2 (elem_of_map_to_list l k v) Hk)))).
    + intros H [k v] Hin. apply elem_of_list_In, elem_of_map_to_list in Hin. cbn [fst snd].
      apply bool_decide_eq_true_2. by apply (proj1 (map_subseteq_spec l m) H).
Qed.
(** With such a selector GetByLabel returns the entries, in order, whose labels
    include the map, and ReleaseByLabel leaves the others. *)
Lemma C91_by_label_pf : forall (valid : string -> string -> bool) (l : labels) sel (c : gcfg) (n : N) (m : record labels) (g : mtree),
  c ∈ g_packages_16_32 -> g_hist any_op c n m g -> g_room c m (GReleaseByLabel sel) ->
  label_selector valid l = Some sel ->
  exists es g', g_get_all g = Ok (Some <$> es) /\
    g_get_by_label g sel = Ok (Some <$> filter (fun e => l ⊆ te_labels e) es) /\
    g_release_by_label label_string c g sel = Ok g' /\
    g_get_all g' = Ok (Some <$> filter (fun e => l ⊈ te_labels e) es).
Proof.
  intros valid l sel c n m g Hc Hh Hr Hs.
  pose proof (proj2 (C91_selector_pf valid l) sel Hs) as Hsel.
  destruct (C42_listings_partial_pf _ _ _ _ _ _ Hc Hh) as (es & Hes & _ & _ & _ & _ & Hby).
  destruct (C41_release_by_label_partial_pf _ label_string _ _ _ _ sel es Hc Hh Hr Hes) as (g' & Hg' & Hes' & _).
  exists es, g'. split; [done|].
  assert (F : forall es, List.filter (fun e => sel (te_labels e)) es = filter (fun e => l ⊆ te_labels e) es).
  { clear - Hsel. induction es as [|e es IH]; [done|]. cbn [List.filter]. rewrite filter_cons.
    specialize (Hsel (te_labels e)). destruct (sel (te_labels e)), (decide _); rewrite IH; try done; naive_solver. }
  assert (F' : forall es, List.filter (fun e => negb (sel (te_labels e))) es = filter (fun e => l ⊈ te_labels e) es).
  { clear - Hsel. induction es as [|e es IH]; [done|]. cbn [List.filter]. rewrite filter_cons.
    specialize (Hsel (te_labels e)). destruct (sel (te_labels e)), (decide _); cbn [negb]; rewrite IH; try done; naive_solver. }
  rewrite Hby, F. split; [done|]. rewrite Hes', F'. split; [|done].
  cbn [g_step] in Hg'. destruct (g_release_by_label _ _ _ _) as [g1|e1|]; cbn [done_or_err] in Hg'; [|done..].
  by injection Hg' as ->.
Qed.
