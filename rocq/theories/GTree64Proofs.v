(** The package tree64 against a set of prefixes with one entry. *)
From Verif Require Import IdProofs IdFinal TreeMain TreeFinal GTreeLoop GTreeProofs TreeSim.
From Verif Require Export Tree64Proofs.
From Coq Require Import Lia ZifyBool ZifyNat ZifyN.
Local Open Scope N_scope.

Notation c64 := cfg_tree64.
Lemma c64_all : cfg_id64 ∈ id_packages.
Proof. unfold id_packages. set_solver. Qed.

(** IDs() of any two bounds returns at least one id, of the width. *)
Lemma append_ids_64 fuel a b : (64 <= fuel)%nat -> a < 2 ^ 64 -> b < 2 ^ 64 ->
  exists l, append_range_ids cfg_id64 (S fuel) a b = Ok l /\ l <> [] /\ Forall (gid_ok c64) l.
Proof.
  intros Hfuel Ha Hb. assert (Hm : cfg_masks cfg_id64) by (apply packages_masks, c64_all).
  cbn [append_range_ids].
  pose proof (xor_size_bound 64 a b Ha Hb) as Hsz.
  assert (Hcmp : exists ok, compare_ids cfg_id64 a b = Ok (64 - N.size (N.lxor a b), ok) /\
    (ok = false -> 0 < N.size (N.lxor a b))).
  { unfold compare_ids, common_mask, lz. change (id_w cfg_id64) with 64.
    destruct (N.eqb_spec (64 - N.size (N.lxor a b)) 64) as [E|E]; [exists true; by rewrite E|].
    assert (Hz : 0 < N.size (N.lxor a b)) by lia.
    destruct (N.eq_dec (N.size (N.lxor a b)) 64) as [E64|E64].
    - rewrite E64. change (mask6 cfg_id64 (64 - 64)) with (Ok (2 ^ 64 - 2 ^ 32)). cbn [rbind]. by eexists.
    - set (sz := N.size (N.lxor a b)) in *. clearbody sz.
      rewrite (cm_mask cfg_id64 Hm (64 - sz)).
      + cbn [rbind]. by eexists.
      + clear -Hsz Hz E64. lia.
      + change (id_w cfg_id64) with 64. clear. lia. }
  destruct Hcmp as (ok & -> & Hok). cbn [rbind fst snd]. destruct ok.
  { eexists. split; [done|]. split; [done|]. constructor; [|constructor]. split; [done|].
    change (64 - N.size (N.lxor a b) <= 64). clear. lia. }
  specialize (Hok eq_refl).
  assert (Hm' : exists m', N.size (N.lxor a b) = m' + 1) by (exists (N.size (N.lxor a b) - 1); lia).
  destruct Hm' as [m' E]. rewrite E. assert (Hmw : m' < 64) by lia. clear E Hok Hsz.
  pose proof (half_set cfg_id64 a m' Hm Ha Hmw) as Hs. pose proof (half_cleared cfg_id64 b m' Hm Hb Hmw) as Hcl.
  change (id_w cfg_id64) with 64 in Hs, Hcl. rewrite Hs. cbn [rbind].
  destruct (append_range_ids_spec cfg_id64 fuel m' a (a / 2 ^ m' * 2 ^ m' + (2 ^ m' - 1)))
    as (l1 & Hl1 & Hf1 & Hc1 & _); [done|..].
  { pose proof (proj1 (block_bounds a a m') eq_refl) as H. pose proof (IdProofs.pow_pos m') as Hp. clear -H Hp.
    set (p := 2 ^ m') in *. clearbody p. set (z := _ * p) in *. clearbody z. lia. }
  { change (id_w cfg_id64) with 64. rewrite (pow_split 64 m') by (clear -Hmw; lia).
    assert (Hq : a / 2 ^ m' < 2 ^ (64 - m')).
    { apply N.div_lt_upper_bound; [done|]. rewrite N.mul_comm, <- pow_split; [done|clear -Hmw; lia]. }
    pose proof (IdProofs.pow_pos m') as Hp. clear -Hq Hp. set (p := 2 ^ m') in *. clearbody p.
    set (q := a / p) in *. clearbody q. set (r := 2 ^ (64 - m')) in *. clearbody r. nia. }
  { symmetry. rewrite N.div_add_l by done. rewrite (N.div_small (2 ^ m' - 1)); [apply N.add_0_r|].
    pose proof (IdProofs.pow_pos m') as Hp. clear -Hp. lia. }
  { change (id_w cfg_id64) with 64. clear -Hmw. lia. }
  { clear -Hmw Hfuel. lia. }
  { by left. }
  rewrite Hl1. cbn [rbind]. rewrite Hcl. cbn [rbind].
  destruct (append_range_ids_spec cfg_id64 fuel m' (b / 2 ^ m' * 2 ^ m') b)
    as (l2 & Hl2 & Hf2 & Hc2 & _); [done|..].
  { pose proof (proj1 (block_bounds b b m') eq_refl) as H. apply H. }
  { done. }
  { by rewrite N.div_mul. }
  { change (id_w cfg_id64) with 64. clear -Hmw. lia. }
  { clear -Hmw Hfuel. lia. }
  { by left. }
  rewrite Hl2. cbn [rbind]. eexists. split; [done|]. split.
  - destruct l1; [|done]. cbn in Hc1. exfalso.
    pose proof (proj1 (block_bounds a a m') eq_refl) as H. pose proof (IdProofs.pow_pos m') as Hp. clear -H Hp Hc1.
    set (p := 2 ^ m') in *. clearbody p. set (z := _ * p) in *. clearbody z. lia.
  - apply Forall_app. split; eapply Forall_impl; try eassumption; intros x (H1 & H2 & _); by split.
Qed.

Lemma range_ids_64 a b : a < 2 ^ 64 -> b < 2 ^ 64 ->
  exists l, range_ids cfg_id64 (range_from cfg_id64 a b) = Ok l /\ l <> [] /\ Forall (gid_ok c64) l.
Proof. intros Ha Hb. apply (append_ids_64 64 a b); [lia|done|done]. Qed.

Lemma parsed_64 s r : parse_range cfg_id64 s = Ok r ->
  exists ids, range_ids cfg_id64 r = Ok ids /\ Forall (gid_ok c64) ids /\ range_prefixes c64 s = ids.
Proof.
  intros Hp. destruct (proj1 (proj1 (C26_parse_range_pf cfg_id64 s r c64_all)) Hp) as (f & t & _ & _ & _ & _ & _ & Hf & Ht & E).
  destruct (range_ids_64 _ _ Hf Ht) as (l & Hl & _ & Hok). rewrite <- E in Hl. exists l. split; [done|]. split; [done|].
  unfold range_prefixes. change (gc_id c64) with cfg_id64. by rewrite Hp, Hl.
Qed.

Lemma range_of_id_long x : 32 < i_len x -> range_of_id cfg_id64 x = Ok None.
Proof.
  intros H. unfold range_of_id, id_masked, id_mask. change (id_masklim cfg_id64) with 32.
  by rewrite (proj2 (N.ltb_lt 32 _)).
Qed.
Lemma range_of_id_short x : 1 <= i_len x <= 32 -> i_id x < 2 ^ 64 ->
  range_of_id cfg_id64 x = Ok (Some (range_from cfg_id64 (i_id x / 2 ^ (64 - i_len x) * 2 ^ (64 - i_len x))
     (i_id x / 2 ^ (64 - i_len x) * 2 ^ (64 - i_len x) + (2 ^ (64 - i_len x) - 1)))).
Proof.
  intros Hl Hx. assert (Hm : cfg_masks cfg_id64) by (apply packages_masks, c64_all).
  apply (range_of_id_from_mask cfg_id64); [change (id_w cfg_id64) with 64; lia|].
  apply (id_mask_spec cfg_id64); [done|done|lia|change (id_w cfg_id64) with 64; lia|
      change (id_masklim cfg_id64) with 32; lia].
Qed.

Section G64.
Context {L : Type} (lstr : L -> string).
Notation zero := (@None (tentry L)).

Record GInv64 (n : N) (st : one L) (g : gtree L) : Prop := MkGInv64 {
  g6_n : n <= 64;
  g6_size : g_size g = 2 ^ n - 1;
  g6_length : g_length g = n;
  g6_tree : CInv None (g_tree g) st;
  g6_cell : forall e, snd st = Some e -> gid_ok c64 (eid e) /\ prefix 64 (eid e) ∈ fst st }.

Lemma new_64 n : n <= 64 -> exists g, g_new c64 n = Ok g /\ GInv64 n (∅, None) g.
Proof.
  intros Hn. unfold g_new. change (id_w (gc_id c64)) with 64. destruct (N.ltb_spec 64 n); [lia|]. eexists. split; [done|].
  constructor; cbn; try done; [|apply CInv_zero].
  unfold usub, ushl. destruct (N.eq_dec n 64) as [->|Hne]; [reflexivity|].
  assert (Hp : 2 ^ n < 2 ^ 64) by (apply N.pow_lt_mono_r; lia).
  pose proof (IdProofs.pow_pos n) as Hpos. rewrite N.shiftl_1_l. rewrite (N.mod_small (2 ^ n)) by done.
  rewrite (N.mod_small 1) by done.
  replace (2 ^ n + 2 ^ 64 - 1) with (2 ^ n - 1 + 1 * 2 ^ 64) by lia. rewrite N.mod_add by done.
  apply N.mod_small. lia.
Qed.

Lemma validate_64 n st g x : GInv64 n st g -> g_validate g x = if 2 ^ n <=? i_id x then Err EMaxId else Ok tt.
Proof.
  intros H. unfold g_validate. rewrite (g6_size _ _ _ H). pose proof (IdProofs.pow_pos n).
  destruct (N.ltb_spec (2 ^ n - 1) (i_id x)), (N.leb_spec (2 ^ n) (i_id x)); try done; lia.
Qed.

Lemma for_64 {A} n st g (body : iter -> A -> res (A * bool)) fb a : GInv64 n st g ->
  (forall it vs a, iter_vals zero (g_tree g) it = Ok vs -> body it a = fb vs a) ->
  g_for g body a = fold_body fb (replicate (size (fst st)) [snd st]) a.
Proof.
  intros H Hb. destruct (iter_cell None (g_tree g) st (g6_tree _ _ _ H)) as (it & Hl & _).
  unfold g_for. by apply (g_loop_spec g body fb Hb _ _ _ it).
Qed.

Lemma fold_same {A} (fb : list (option (tentry L)) -> A -> res (A * bool)) vs k a (f : A -> A) :
  (forall a, fb vs a = Ok (f a, false)) -> fold_body fb (replicate k vs) a = Ok (Nat.iter k f a).
Proof.
  intros H. revert a. induction k as [|k IH]; intros a; [done|]. cbn [replicate fold_body]. rewrite H. cbn [rbind fst snd].
  rewrite IH. f_equal. clear. rewrite <- Nat.iter_succ_r. done.
Qed.
Lemma fold_panic {A} (fb : list (option (tentry L)) -> A -> res (A * bool)) vs k a :
  fb vs a = Panic -> k <> O -> fold_body fb (replicate k vs) a = Panic.
Proof. intros H Hk. destruct k; [done|]. cbn [replicate fold_body]. by rewrite H. Qed.
Lemma iter_append {A} (v : A) k l : Nat.iter k (fun l => l ++ [v]) l = l ++ replicate k v.
Proof.
  induction k as [|k IH]; [cbn; by rewrite app_nil_r|]. rewrite Nat.iter_succ, IH, <- app_assoc. f_equal.
  rewrite <- replicate_cons_app. done.
Qed.
Lemma iter_id {A} (l : A) k : Nat.iter k (fun l => l) l = l.
Proof. induction k as [|k IH]; [done|]. by rewrite Nat.iter_succ, IH. Qed.
Lemma size_0 (P : pset) : size P = O <-> P = ∅.
Proof. by rewrite size_empty_iff, leibniz_equiv_iff. Qed.

(** The loops that collect entries. *)
Lemma collect_64 n st g (keep : tentry L -> bool) (body : iter -> list (option (tentry L)) -> res (list (option (tentry L)) * bool)) f :
  GInv64 n st g ->
  (forall it es, body it es = do v <- it_entry g it; f v es) ->
  (forall es, f None es = Panic) ->
  (forall e es, snd st = Some e -> f (Some e) es = Ok (if keep e then es ++ [Some e] else es, false)) ->
  g_for g body [] = one_list st keep.
Proof.
  intros H Hb Hp Hf.
  rewrite (for_64 n st g _ (fun vs es => match vs with [] => Panic | v :: _ => f v es end) [] H).
  2: { intros it vs a Hv. rewrite Hb. unfold it_entry. rewrite Hv. cbn [rbind]. by destruct vs. }
  unfold one_list. destruct st as [P cell]. cbn [fst snd] in *.
  destruct (bool_decide_reflect (P = ∅)) as [->|Hne]; [by rewrite size_empty|].
  destruct cell as [e|].
  - rewrite (fold_same _ _ _ _ (fun es => if keep e then es ++ [Some e] else es)).
    2: { intros a. by apply Hf. }
    f_equal. destruct (keep e); [by rewrite iter_append|by rewrite iter_id].
  - apply fold_panic; [apply Hp|]. by rewrite size_0.
Qed.

Lemma overlaps_64 x y : gid_ok c64 x -> gid_ok c64 y ->
  exists o, overlaps cfg_id64 x y = Ok o /\
    (o = true <-> prefix 64 x `prefix_of` prefix 64 y \/ prefix 64 y `prefix_of` prefix 64 x).
Proof.
  intros Hx Hy.
  assert (Hid : forall z, gid_ok c64 z -> id_ok cfg_id64 z).
  { intros z [H1 H2]. split; [done|]. change (gw c64) with 64 in H2. lia. }
  destruct (C23_overlaps_decides_intersection_pf cfg_id64 x y c64_all (Hid x Hx) (Hid y Hy)) as (o & Ho & H1 & _); [apply Hx|apply Hy|].
  exists o. split; [done|]. rewrite H1. destruct Hx as [Hx Hlx], Hy as [Hy Hly]. change (gw c64) with 64 in *.
  change (id_w cfg_id64) with 64.
  rewrite !prefix_of_covers by done. split.
  - intros (v & Hv1 & Hv2). destruct (N.le_ge_cases (i_len x) (i_len y)) as [Hl|Hl]; [left|right].
    + split; [done|]. by apply (covers_finer 64 x y v (i_id y)).
    + split; [done|]. by apply (covers_finer 64 y x v (i_id x)).
  - intros [[Hl H]|[Hl H]]; [exists (i_id y)|exists (i_id x)]; done.
Qed.

Lemma sees_64 n st g : GInv64 n st g -> sees g st.
Proof.
  intros H. unfold sees. split; [|split; [|split; [|split; [|split]]]].
  - unfold g_Size. rewrite (for_64 n st g _ (fun _ n => Ok (n + 1, false)) 0 H) by done.
    rewrite (fold_same _ _ _ _ (fun n => n + 1)) by done. f_equal.
    induction (size (fst st)) as [|k IH]; [done|]. rewrite Nat.iter_succ, IH. lia.
  - unfold g_get_all.
    rewrite (for_64 n st g _ (fun vs es => match vs with [] => Panic | v :: _ => Ok (es ++ [v], false) end) [] H).
    2: { intros it vs a Hv. unfold it_entry. rewrite Hv. cbn [rbind]. by destruct vs. }
    rewrite (fold_same _ _ _ _ (fun es => es ++ [snd st])) by done. by rewrite iter_append.
  - intros x. unfold g_get, one_get.
    rewrite (for_64 n st g _ (fun vs _ => match vs with
                 | [] => Panic
                 | v :: _ => do e <- non_nil v; if same_id e x then Ok (Some e, true) else Ok (None, false)
                 end) None H).
    2: { intros it vs a Hv. unfold it_entry. rewrite Hv. cbn [rbind]. by destruct vs. }
    destruct st as [P cell]. cbn [fst snd] in *.
    destruct (bool_decide_reflect (P = ∅)) as [->|Hne]; [by rewrite size_empty|].
    assert (Hk : size P <> O) by (by rewrite size_0).
    destruct cell as [e|].
    + destruct (same_id e x) eqn:Hs.
      * destruct (size P); [done|]. cbn [replicate fold_body non_nil rbind]. rewrite Hs. done.
      * rewrite (fold_same _ _ _ _ (fun _ => None)).
        2: { intros a. cbn [non_nil rbind]. by rewrite Hs. }
        destruct (size P); [done|]. done.
    + rewrite fold_panic by done. done.
  - intros sel. unfold g_get_by_label.
    apply (collect_64 n st g _ _ (fun v es => do e <- non_nil v; Ok (if sel (te_labels e) then es ++ [v] else es, false)) H); done.
  - intros x Hx. unfold g_children.
    apply (collect_64 n st g _ _ (fun v es => do e <- non_nil v; do o <- overlaps (gc_id c64) (eid e) x;
      Ok (if o && (i_len x <? te_len e) then es ++ [v] else es, false)) H); [done|done|].
    intros e es He. destruct (g6_cell _ _ _ H e He) as [Hge _]. cbn [non_nil rbind]. change (gc_id c64) with cfg_id64.
    destruct (overlaps_64 (eid e) x Hge Hx) as (o & -> & Hov). cbn [rbind]. cbv beta.
    match goal with |- Ok (if ?a then _ else _, _) = Ok (if ?b then _ else _, _) => assert (E : a = b); [|by rewrite E] end.
    destruct (N.ltb_spec (i_len x) (te_len e)) as [Hl|Hl]; [|by rewrite !andb_false_r].
    rewrite !andb_true_r. apply eq_bool_prop_intro. rewrite bool_decide_spec.
    rewrite Is_true_true, Hov. split; [|by right]. intros [[r Hr]|Hp]; [|done].
    exfalso. apply (f_equal length) in Hr. rewrite app_length, !TreeBits.prefix_length in Hr. cbn in Hr. lia.
  - intros x Hx. unfold g_parents.
    apply (collect_64 n st g _ _ (fun v es => do e <- non_nil v; do o <- overlaps (gc_id c64) (eid e) x;
      Ok (if o && (te_len e <? id_w (gc_id c64)) then es ++ [v] else es, false)) H); [done|done|].
    intros e es He. destruct (g6_cell _ _ _ H e He) as [Hge _]. cbn [non_nil rbind]. change (gc_id c64) with cfg_id64.
    destruct (overlaps_64 (eid e) x Hge Hx) as (o & -> & Hov). cbn [rbind]. cbv beta.
    match goal with |- Ok (if ?a then _ else _, _) = Ok (if ?b then _ else _, _) => assert (E : a = b); [|by rewrite E] end.
    change (id_w cfg_id64) with 64. f_equal. apply eq_bool_prop_intro. rewrite bool_decide_spec.
    rewrite Is_true_true, Hov. tauto.
Qed.

(* ---------------------------------------------------------------- claims *)
Lemma with_64 n st g s' st' : GInv64 n st g -> CInv None s' st' ->
  (forall e, snd st' = Some e -> gid_ok c64 (eid e) /\ prefix 64 (eid e) ∈ fst st') ->
  GInv64 n st' (with_tree g s').
Proof. intros [H1 H2 H3 _ _] Hc He. by constructor. Qed.

Lemma set_64 n st g x l : GInv64 n st g -> gid_ok c64 x ->
  exists g', g_set c64 g x (new_entry x l) = Ok g' /\ GInv64 n (one_claim st x l) g'.
Proof.
  intros H Hx.
  destruct (cell_step_spec None (g_tree g) st (TSet x (Some (new_entry x l))) (g6_tree _ _ _ H) Hx I) as (s' & Hs & Hc & _).
  unfold g_set. change (gc_id c64) with cfg_id64. cbn [t_step cell_step fst snd] in *.
  destruct (tree_Set None cfg_id64 (g_tree g) x (Some (new_entry x l))) as [[s1 r]| |]; cbn [rbind fst snd] in *; [|done..].
  injection Hs as -> _. eexists. split; [done|]. apply (with_64 n st g); [done|done|].
  intros e. unfold one_claim. cbn [fst snd]. intros [= <-]. unfold eid. cbn [te_id te_len].
  destruct x as [xi xl]. split; [done|]. cbn [i_id i_len]. set_solver.
Qed.

Lemma set_all_64 n l ids : forall st g, GInv64 n st g -> Forall (gid_ok c64) ids ->
  exists g', set_all c64 g ids l = Ok g' /\ GInv64 n (fold_left (fun st x => one_claim st x l) ids st) g'.
Proof.
  induction ids as [|x ids IH]; intros st g H Hok; [by exists g|].
  apply Forall_cons in Hok as [Hx Hok]. cbn [set_all fold_left].
  destruct (set_64 n st g x l H Hx) as (g1 & -> & H1). cbn [rbind].
  by apply IH.
Qed.

Lemma del_64 n st g e : GInv64 n st g -> snd st = Some e ->
  exists g', g_del lstr c64 g (eid e) (Some e) = Ok g' /\ GInv64 n (fst st ∖ {[ prefix 64 (eid e) ]}, None) g'.
Proof.
  intros H He. destruct (g6_cell _ _ _ H e He) as [Hge Hin].
  destruct (cell_step_spec None (g_tree g) st (TDelete (eid e) (match_entry lstr) (Some e)) (g6_tree _ _ _ H) Hge I)
    as (s' & Hs & Hc & _).
  unfold g_del. change (gc_id c64) with cfg_id64. cbn [t_step cell_step fst snd] in *.
  rewrite He, (match_entry_refl lstr e), bool_decide_true in Hs, Hc by done. cbn [andb fst snd] in Hs, Hc.
  destruct (tree_Delete None cfg_id64 (g_tree g) (eid e) (match_entry lstr) (Some e)) as [[s1 r]| |]; cbn [rbind fst snd] in *; [|done..].
  injection Hs as -> _. eexists. split; [done|]. apply (with_64 n st g); done.
Qed.
(** A second del of a prefix that is gone. *)
Lemma del_gone n st g x v : GInv64 n st g -> gid_ok c64 x -> prefix 64 x ∉ fst st ->
  exists g', g_del lstr c64 g x v = Ok g' /\ GInv64 n st g'.
Proof.
  intros H Hx Hin.
  destruct (cell_step_spec None (g_tree g) st (TDelete x (match_entry lstr) v) (g6_tree _ _ _ H) Hx I)
    as (s' & Hs & Hc & _).
  unfold g_del. change (gc_id c64) with cfg_id64. cbn [t_step cell_step fst snd] in *.
  rewrite bool_decide_false in Hs, Hc by done. cbn [andb fst snd] in Hs, Hc.
  destruct (tree_Delete None cfg_id64 (g_tree g) x (match_entry lstr) v) as [[s1 r]| |]; cbn [rbind fst snd] in *; [|done..].
  injection Hs as -> _. eexists. split; [done|]. apply (with_64 n st g); [done|done|]. apply H.
Qed.
Lemma del_all_gone n st e k : forall g, GInv64 n st g -> gid_ok c64 (eid e) -> prefix 64 (eid e) ∉ fst st ->
  exists g', del_all lstr c64 g (replicate k (Some e)) = Ok g' /\ GInv64 n st g'.
Proof.
  induction k as [|k IH]; intros g H Hx Hin; [by exists g|]. cbn [replicate del_all non_nil rbind].
  destruct (del_gone n st g (eid e) (Some e) H Hx Hin) as (g1 & -> & H1). cbn [rbind]. by apply IH.
Qed.

(* -------------------------------------------------------------- findFree *)
Lemma id_less_64 a b : id_less (MyId a 64) (MyId b 64) = (a <? b).
Proof.
  unfold id_less, id_compare. cbn [i_len i_id]. change (64 <? 64) with false.
  destruct (N.ltb_spec a b); [done|]. by destruct (N.ltb_spec b a).
Qed.
Lemma less_or_eq_64 a b : less_or_eq (MyId a 64) (MyId b 64) = (a <=? b).
Proof.
  unfold less_or_eq, id_compare. cbn [i_len i_id]. change (64 <? 64) with false.
  destruct (N.ltb_spec a b), (N.leb_spec a b); try done; try lia; destruct (N.ltb_spec b a); done || lia.
Qed.

Lemma is_valid_64 a b : is_valid (range_from cfg_id64 a b) = (a <=? b).
Proof. unfold is_valid, range_from. cbn [r_from r_to i_id i_len]. rewrite N.eqb_refl. cbn. by rewrite N.ltb_antisym, negb_involutive. Qed.

Definition any_range (r : range) : Prop := exists a b, r = range_from cfg_id64 a b /\ a < 2 ^ 64 /\ b < 2 ^ 64.

Lemma merge_same k r : is_valid r = true -> (forall q, id_less q q = false) -> id_less (r_to r) (r_from r) = false ->
  merge_loop cfg_id64 [] r (replicate k r) = Some [r].
Proof.
  intros Hv Hirr Hle. induction k as [|k IH]; [done|]. cbn [replicate merge_loop]. rewrite Hv. cbn [negb].
  assert (E : set_to r (r_to r) = r) by (by destruct r).
  rewrite E, Hle, Hirr, IH. by destruct (id_eqb _ _).
Qed.

Lemma merge_copies k a b : a <= b -> merge_ranges cfg_id64 (replicate (S k) (range_from cfg_id64 a b)) = Some [range_from cfg_id64 a b].
Proof.
  intros Hab. set (r := range_from cfg_id64 a b).
  assert (Hs : sort_ranges (replicate (S k) r) = replicate (S k) r).
  { symmetry. apply replicate_Permutation. symmetry. apply merge_sort_Permutation. }
  destruct k as [|k]; [done|]. unfold merge_ranges. cbn [replicate] in *. rewrite Hs.
  change (r :: replicate k r) with (replicate (S k) r). apply merge_same.
  - unfold r. rewrite is_valid_64. by apply N.leb_le.
  - intros q. unfold id_less, id_compare. by rewrite !N.ltb_irrefl.
  - unfold r, range_from. cbn [r_from r_to]. change (id_w cfg_id64) with 64. rewrite id_less_64. by apply N.ltb_ge.
Qed.

Lemma prev_64 a : 0 < a -> exists v, id_prev cfg_id64 (MyId a 64) = MyId v 64 /\ v < 2 ^ 64.
Proof.
  intros Ha. unfold id_prev. cbn [i_id i_len]. destruct (N.eqb_spec a 0); [lia|]. eexists. split; [done|].
  cbn [cfg_id64 id_subone]. unfold sub_one, usub. eapply N.lt_trans; [by apply N.mod_lt|done].
Qed.

(** One block removed from a block at 0 that it does not contain: something is left. *)
Lemma normalize_left hi lo e : hi < 2 ^ 64 -> lo <= e -> e < 2 ^ 64 -> (lo = 0 -> e < hi) ->
  exists l, normalize_loop cfg_id64 3 [range_from cfg_id64 0 hi] [range_from cfg_id64 lo e] [] = Ok l /\
    l <> [] /\ Forall any_range l.
Proof.
  intros Hhi Hlo He Hnot. cbn [normalize_loop]. rewrite !is_valid_64.
  rewrite (proj2 (N.leb_le lo e)), (proj2 (N.leb_le 0 hi)) by (done || lia). cbn [negb orb].
  unfold entirely_before, covered_by, in_middle_of, overlaps_start_of, overlaps_end_of, range_from, set_from.
  cbn [r_from r_to]. change (id_w cfg_id64) with 64. rewrite !id_less_64, !less_or_eq_64.
  assert (HR : any_range (Range (MyId 0 64) (MyId hi 64))) by (exists 0, hi; split; [done|lia]).
  destruct (N.ltb_spec e 0); [lia|].
  destruct (N.ltb_spec hi lo) as [H1|H1].
  { eexists. split; [done|]. split; [done|]. by constructor. }
  assert (Hn : e < hi -> id_next cfg_id64 (MyId e 64) = MyId (e + 1) 64).
  { intros Hlt. unfold id_next. cbn [i_id i_len cfg_id64 id_addone]. rewrite add_one_small by (done || lia).
    by destruct (N.eqb_spec (e + 1) 0); [lia|]. }
  destruct (N.leb_spec lo 0) as [H2|H2].
  - assert (lo = 0) as -> by lia. specialize (Hnot eq_refl). rewrite (proj2 (N.leb_gt hi e)) by done.
    cbn [andb]. rewrite (proj2 (N.ltb_ge 0 0)) by lia. cbn [andb].
    rewrite (proj2 (N.ltb_lt e hi)) by done. cbn [andb]. rewrite Hn by done. eexists. split; [done|]. split; [done|].
    constructor; [|constructor]. exists (e + 1), hi. split; [done|]. lia.
  - cbn [andb]. rewrite (proj2 (N.ltb_lt 0 lo)) by done.
    destruct (prev_64 lo H2) as (v & -> & Hv).
    assert (HL : any_range (Range (MyId 0 64) (MyId v 64))) by (exists 0, v; split; [done|lia]).
    destruct (N.ltb_spec e hi) as [H3|H3]; cbn [andb].
    + rewrite Hn by done. eexists. split; [done|]. split; [done|]. constructor; [done|]. constructor; [|constructor].
      exists (e + 1), hi. split; [done|]. lia.
    + rewrite (proj2 (N.leb_le hi e)) by done. eexists. split; [done|]. split; [done|]. by constructor.
Qed.

(** RemoveFreePrefix of a non-empty set panics: the id it picks has length 64. *)
Lemma best_fit_some b ids : Forall (gid_ok c64) ids -> (b <> None \/ ids <> []) -> exists x, best_fit 64 b ids = Some x.
Proof.
  intros H. revert b. induction H as [|x ids [_ Hx] Hids IH]; intros b Hb.
  - destruct b as [b|]; [by exists b|]. by destruct Hb.
  - change (gw c64) with 64 in Hx. cbn [best_fit]. rewrite (proj2 (N.ltb_ge 64 (i_len x))) by done.
    destruct (match b with None => true | Some b => i_len b <? i_len x end) eqn:E.
    + destruct (i_len x =? 64); [by eexists|]. apply IH. by left.
    + apply IH. left. by destruct b.
Qed.
Lemma best_fit_set_some l : Forall any_range l -> forall b, (b <> None \/ l <> []) ->
  exists x, best_fit_set cfg_id64 64 b l = Ok (Some x).
Proof.
  induction 1 as [|r l (a & b' & -> & Ha & Hb') Hl IH]; intros b Hb.
  - destruct b as [b|]; [by exists b|]. by destruct Hb.
  - cbn [best_fit_set]. destruct (range_ids_64 a b' Ha Hb') as (ids & -> & Hne & Hok). cbn [rbind].
    destruct (best_fit_some b ids Hok) as [x ->]; [by right|]. apply IH. by left.
Qed.
Lemma add_set_ok l : forall b, b_out b = [] -> exists b', add_set cfg_id64 b l = Ok b' /\ b_out b' = [].
Proof.
  induction l as [|r l IH]; intros b Hb; [by exists b|]. cbn [add_set]. unfold add_range.
  destruct (negb (is_valid r)); cbn [rbind].
  - apply IH. done.
  - rewrite Hb. cbn [length Nat.ltb Nat.leb rbind]. apply IH. done.
Qed.
Lemma remove_free_panics l : Forall any_range l -> l <> [] -> remove_free_prefix cfg_id64 l 64 = Panic.
Proof.
  intros H Hne. unfold remove_free_prefix. destruct (best_fit_set_some l H None) as [x ->]; [by right|]. cbn [rbind].
  destruct (add_set_ok l builder_zero eq_refl) as (b & -> & _). cbn [rbind]. unfold remove_id.
  by rewrite range_of_id_long.
Qed.

Lemma remove_all_copies k e r b : range_of_id cfg_id64 (eid e) = Ok (Some r) -> is_valid r = true ->
  remove_all (L := L) c64 b (replicate k (Some e)) = Ok (Builder (b_in b) (b_out b ++ replicate k r) (b_errs b)).
Proof.
  intros Hr Hv. revert b. induction k as [|k IH]; intros b; cbn [replicate remove_all].
  - rewrite app_nil_r. by destruct b.
  - cbn [non_nil rbind]. change (gc_id c64) with cfg_id64. unfold remove_id. rewrite Hr. cbn [rbind]. rewrite Hv.
    unfold remove_range. rewrite Hv. cbn [rbind]. rewrite IH. cbn [b_in b_out b_errs]. by rewrite <- app_assoc.
Qed.

Lemma find_free_64 n st g : GInv64 n st g -> g_find_free c64 g = Panic.
Proof.
  intros H. unfold g_find_free. rewrite (g6_length _ _ _ H). pose proof (g6_n _ _ _ H) as Hn.
  assert (Hroot : gc_root c64 n = 64 - n).
  { cbn [cfg_tree64 gc_root]. unfold usub. rewrite (N.mod_small n) by (clear -Hn; lia).
    replace (64 + 2 ^ 8 - n) with (64 - n + 1 * 2 ^ 8) by (clear -Hn; lia).
    rewrite N.mod_add by done. apply N.mod_small. clear -Hn. lia. }
  change (gc_id c64) with cfg_id64. change (id_w cfg_id64) with 64. rewrite Hroot. clear Hroot.
  destruct (N.lt_ge_cases n 32) as [Hlt|Hge].
  { unfold add_id. by rewrite range_of_id_long by (cbn [i_len]; clear -Hlt; lia). }
  assert (Hroot : range_of_id cfg_id64 (MyId 0 (64 - n)) = Ok (Some (range_from cfg_id64 0 (2 ^ n - 1)))).
  { destruct (N.eq_dec n 64) as [->|Hne]; [reflexivity|].
    rewrite range_of_id_short by (cbn [i_len i_id]; try (clear -Hge Hn Hne; lia); done). cbn [i_id i_len].
    rewrite N.div_0_l, N.mul_0_l, N.add_0_l by (apply N.pow_nonzero; done).
    by replace (64 - (64 - n)) with n by (clear -Hn; lia). }
  assert (Hpn : 2 ^ n <= 2 ^ 64) by (apply N.pow_le_mono_r; [done|clear -Hn; lia]).
  pose proof (IdProofs.pow_pos n) as Hpos.
  assert (HR : any_range (range_from cfg_id64 0 (2 ^ n - 1))) by (exists 0, (2 ^ n - 1); split; [done|clear -Hpn Hpos; lia]).
  unfold add_id. rewrite Hroot. cbn [rbind]. rewrite is_valid_64. change (0 <=? 2 ^ n - 1) with (0 <=? 2 ^ n - 1).
  rewrite (proj2 (N.leb_le 0 _)) by apply N.le_0_l. unfold add_range. rewrite is_valid_64, (proj2 (N.leb_le 0 _)) by apply N.le_0_l.
  cbn [negb builder_zero b_out b_in b_errs length Nat.ltb Nat.leb rbind app].
  assert (Hgr : gid_ok c64 (MyId 0 (64 - n))) by (split; [done|change (64 - n <= 64); clear; lia]).
  destruct (sees_64 n st g H) as (_ & _ & _ & _ & Hch & _). rewrite (Hch _ Hgr). clear Hch.
  unfold one_list. destruct st as [P cell]. cbn [fst snd] in *.
  assert (Hempty : ip_set cfg_id64 (Builder [range_from cfg_id64 0 (2 ^ n - 1)] [] []) =
    Ok (Builder [range_from cfg_id64 0 (2 ^ n - 1)] [] [], ([range_from cfg_id64 0 (2 ^ n - 1)], []))) by reflexivity.
  assert (Hempty' : (do s <- ip_set cfg_id64 (Builder [range_from cfg_id64 0 (2 ^ n - 1)] [] []);
    match snd (snd s) with
    | e :: _ => Err e
    | [] =>
      do f <- remove_free_prefix cfg_id64 (fst (snd s)) 64;
      match f with
      | None => Err ENoFreeId
      | Some (x, _) => do _ <- g_validate g x; Ok (uwrap 64 (i_id x))
      end
    end) = Panic).
  { rewrite Hempty. cbn [rbind fst snd]. by rewrite remove_free_panics by (done || by constructor). }
  destruct (bool_decide_reflect (P = ∅)) as [->|HP]; [exact Hempty'|].
  destruct cell as [e|]; [|done]. cbn [rbind].
  destruct (bool_decide _ && (i_len (MyId 0 (64 - n)) <? te_len e)) eqn:Hk; [|exact Hempty'].
  apply andb_true_iff in Hk as [_ Hk]. apply N.ltb_lt in Hk. cbn [i_len] in Hk.
  destruct (g6_cell _ _ _ H e eq_refl) as [[Hge1 Hge2] _]. change (gw c64) with 64 in *.
  assert (Hk' : exists k, size P = S k).
  { assert (size P <> O) by (by rewrite size_0). destruct (size P); [done|by eexists]. }
  destruct Hk' as [k ->].
  destruct (N.le_gt_cases (te_len e) 32) as [He|He].
  - set (r := range_from cfg_id64 (te_id e / 2 ^ (64 - te_len e) * 2 ^ (64 - te_len e))
       (te_id e / 2 ^ (64 - te_len e) * 2 ^ (64 - te_len e) + (2 ^ (64 - te_len e) - 1))).
    assert (Hr : range_of_id cfg_id64 (eid e) = Ok (Some r)).
    { apply range_of_id_short; cbn [eid i_len i_id]; [clear -Hk He; lia|done]. }
    pose proof (IdProofs.pow_pos (64 - te_len e)) as Hpe.
    assert (Hlo : te_id e / 2 ^ (64 - te_len e) * 2 ^ (64 - te_len e) <=
      te_id e / 2 ^ (64 - te_len e) * 2 ^ (64 - te_len e) + (2 ^ (64 - te_len e) - 1)) by apply N.le_add_r.
    rewrite (remove_all_copies _ e r); [|done|unfold r; rewrite is_valid_64; by apply N.leb_le].
    cbn [b_in b_out b_errs app rbind]. unfold ip_set, normalize. cbn [b_in b_out b_errs merge_ranges].
    unfold r. rewrite merge_copies by done. fold r. cbn [length Nat.add].
    destruct (normalize_left (2 ^ n - 1) (te_id e / 2 ^ (64 - te_len e) * 2 ^ (64 - te_len e))
      (te_id e / 2 ^ (64 - te_len e) * 2 ^ (64 - te_len e) + (2 ^ (64 - te_len e) - 1))) as (l & Hl & Hne & Hall).
    + clear -Hpn Hpos. lia.
    + done.
    + pose proof (proj1 (IdProofs.block_bounds (te_id e) (te_id e) (64 - te_len e)) eq_refl) as Hb.
      cbn [eid i_id i_len] in Hge1, Hge2.
      assert (Hq : te_id e / 2 ^ (64 - te_len e) < 2 ^ (64 - (64 - te_len e))).
      { apply N.div_lt_upper_bound; [lia|]. rewrite N.mul_comm, <- pow_split; [done|clear; lia]. }
      rewrite (pow_split 64 (64 - te_len e)) by (clear; lia). clear -Hq Hpe.
      set (p := 2 ^ (64 - te_len e)) in *. clearbody p. set (q := te_id e / p) in *. clearbody q.
      set (z := 2 ^ (64 - (64 - te_len e))) in *. clearbody z. nia.
    + intros E. rewrite E, N.add_0_l.
      assert (Hlt : 2 ^ (64 - te_len e) < 2 ^ n) by (apply N.pow_lt_mono_r; [done|clear -Hk Hn He; lia]).
      clear -Hlt Hpe. set (p := 2 ^ (64 - te_len e)) in *. clearbody p. set (q := 2 ^ n) in *. clearbody q. lia.
    + fold r in Hl. rewrite Hl. cbn [rbind b_errs fst snd]. by rewrite remove_free_panics.
  - cbn [replicate remove_all non_nil rbind]. change (gc_id c64) with cfg_id64. unfold remove_id.
    by rewrite range_of_id_long by (cbn [eid i_len]; done).
Qed.

(* ------------------------------------------------------------------ steps *)
Lemma step_64 n st g o : GInv64 n st g -> gop_ok c64 o ->
  match one_step n st o with
  | None => g_step lstr c64 g o = Panic
  | Some (st', r) => exists g', g_step lstr c64 g o = Ok (g', r) /\ GInv64 n st' g'
  end.
Proof.
  intros H Ho. destruct o as [x l|x l|l|s l|x|sel]; cbn [g_step one_step gop_ok] in *.
  - unfold g_claim_id. rewrite (validate_64 n st g x H). destruct (2 ^ n <=? i_id x); cbn [rbind done_or_err]; [by exists g|].
    destruct (set_64 n st g x l H Ho) as (g' & -> & H'). by exists g'.
  - unfold g_update. rewrite (validate_64 n st g x H). destruct (2 ^ n <=? i_id x); cbn [rbind done_or_err]; [by exists g|].
    destruct (set_64 n st g x l H Ho) as (g' & -> & H'). by exists g'.
  - unfold g_claim_free. by rewrite (find_free_64 n st g H).
  - unfold g_claim_range. change (gc_id c64) with cfg_id64.
    destruct (parse_range cfg_id64 s) as [r|e|] eqn:Hp; cbn [rbind done_or_err].
    + destruct (parsed_64 s r Hp) as (ids & Hids & Hok & Hrp). rewrite Hids, Hrp in *. cbn [rbind].
      destruct (set_all_64 n l ids st g H Hok) as (g' & -> & H'). by exists g'.
    + by exists g.
    + by destruct (C26_parse_range_pf cfg_id64 s (Range (MyId 0 0) (MyId 0 0)) c64_all) as [_ Hx].
  - unfold g_release_id. rewrite (validate_64 n st g x H). destruct (2 ^ n <=? i_id x); cbn [rbind done_or_err]; [by exists g|].
    destruct (sees_64 n st g H) as (_ & _ & Hget & _). rewrite Hget. unfold one_get.
    destruct (bool_decide (fst st = ∅)); [by exists g|].
    destruct (snd st) as [e|] eqn:He; [|done]. destruct (same_id e x) eqn:Hs; [|by exists g].
    assert (E : x = eid e).
    { unfold same_id in Hs. apply andb_true_iff in Hs as [H1 H2]. apply N.eqb_eq in H1, H2. destruct x. cbn in *. by subst. }
    rewrite E. destruct (del_64 n st g e H He) as (g' & -> & H'). by exists g'.
  - unfold g_release_by_label. destruct (sees_64 n st g H) as (_ & _ & _ & Hlab & _). rewrite Hlab. unfold one_list.
    destruct (bool_decide_reflect (fst st = ∅)) as [HP|HP]; [by exists g|].
    destruct (snd st) as [e|] eqn:He; [|done]. cbn [rbind]. destruct (sel (te_labels e)); [|by exists g].
    destruct (size (fst st)) as [|k] eqn:Hk; [by apply size_0 in Hk|].
    cbn [replicate del_all non_nil rbind].
    destruct (del_64 n st g e H He) as (g1 & -> & H1). cbn [rbind].
    destruct (del_all_gone n _ e k g1 H1) as (g' & -> & H').
    + by apply (g6_cell _ _ _ H).
    + cbn [fst]. set_solver.
    + by exists g'.
Qed.

Lemma run_64 n os : forall st g, GInv64 n st g -> Forall (gop_ok c64) os ->
  match one_run n st os with
  | None => g_run lstr c64 g os = Panic
  | Some (st', rs) => exists g', g_run lstr c64 g os = Ok (g', rs) /\ GInv64 n st' g'
  end.
Proof.
  induction os as [|o os IH]; intros st g H Ho; [by exists g|]. apply Forall_cons in Ho as [Ho Hos].
  cbn [one_run g_run]. pose proof (step_64 n st g o H Ho) as Hs.
  destruct (one_step n st o) as [[st1 r1]|] eqn:E.
  - destruct Hs as (g1 & -> & H1). cbn [rbind fst snd].
    specialize (IH st1 g1 H1 Hos). destruct (one_run n st1 os) as [[st2 rs]|].
    + destruct IH as (g2 & -> & H2). exists g2. by cbn.
    + by rewrite IH.
  - by rewrite Hs.
Qed.
End G64.
