(** Delete on the representation. *)
From Verif Require Export TreeInv.
From Coq Require Import Lia ZifyBool ZifyNat ZifyN.
Local Open Scope N_scope.

(** A node seen from one of its sides. *)
Definition nodeD {T} (p : N) (pb : list bool) (pvs : list T) (d : bool) (t o : gt T) : gt T :=
  GNode p pb pvs (if d then o else t) (if d then t else o).
Definition n_dir (d : bool) (n : node) : N := if d then n_right n else n_left n.
Definition set_dir (d : bool) (j : N) (n : node) : node := if d then set_right j n else set_left j n.

Lemma nodeD_child {T} i b (vs : list T) l r e :
  GNode i b vs l r = nodeD i b vs e (child e l r) (child (negb e) l r).
Proof. by destruct e. Qed.

Lemma fp_nodeD {T} p pb (pvs : list T) d t o : fp (nodeD p pb pvs d t o) ≡ₚ p :: fp t ++ fp o.
Proof. unfold nodeD. destruct d; cbn [fp]; [|done]. by rewrite (Permutation_app_comm (fp o)). Qed.

Lemma n_dir_set d j n : n_dir d (set_dir d j n) = j.
Proof. by destruct d. Qed.
Lemma n_dir_set_ne d j n : n_dir (negb d) (set_dir d j n) = n_dir (negb d) n.
Proof. by destruct d. Qed.
Lemma set_dir_other {A} (X : node -> A) d j n :
  (forall a n, X (set_right a n) = X n) -> (forall a n, X (set_left a n) = X n) -> X (set_dir d j n) = X n.
Proof. intros H1 H2. by destruct d. Qed.

(** A chain of one valueless node is compressed. *)
Lemma look_compress {T} i j k b e lb (lvs : list T) ll lr q' : head lb = Some e ->
  glook (GNode j (b ++ lb) lvs ll lr) q' = glook (nodeD i b [] e (GNode k lb lvs ll lr) GNil) q'.
Proof.
  intros He. unfold nodeD. cbn [glook]. rewrite strip_app. destruct (strip b q') as [q2|]; [|done].
  destruct lb as [|e' lb]; [done|]. cbn in He. injection He as ->.
  destruct q2 as [|a q2]; [done|]. destruct a, e; cbn [glook strip Bool.eqb]; done.
Qed.

Lemma look_nodeD {T} p b (vs : list T) d t t' o q2 vs' q' :
  (forall q'', glook t' q'' = if decide (q'' = d :: q2) then vs' else glook t q'') ->
  glook (nodeD p b vs d t' o) q' = if decide (q' = b ++ d :: q2) then vs' else glook (nodeD p b vs d t o) q'.
Proof. intros H. apply look_below; destruct d; done. Qed.

Lemma look_nodeD_same {T} p b (vs : list T) d t t' o q' : (forall q'', glook t' q'' = glook t q'') ->
  glook (nodeD p b vs d t' o) q' = glook (nodeD p b vs d t o) q'.
Proof.
  intros H. unfold nodeD. cbn [glook]. destruct (strip b q') as [[|a q2]|]; [done| |done]. by destruct d, a.
Qed.

Lemma l_add_list {T} m (v : T) vs : fst (l_add (Some m) None v vs) = add_list (Some m) v vs.
Proof.
  unfold l_add, add_list. destruct (list_find _ vs) as [[k y]|] eqn:Hf.
  - apply list_find_Some in Hf as (H1 & H2 & _). replace (existsb _ vs) with true; [done|].
    symmetry. apply existsb_exists. exists y. split; [|done]. apply elem_of_list_In. by eapply elem_of_list_lookup_2.
  - apply list_find_None in Hf. replace (existsb _ vs) with false; [done|]. symmetry.
    apply Bool.not_true_is_false. intros H. apply existsb_exists in H as (y & Hy & Hm).
    rewrite Forall_forall in Hf. apply (Hf y); [by apply elem_of_list_In|done].
Qed.

Lemma add_list_length {T} mf (v : T) vs : (length vs <= length (add_list mf v vs) <= S (length vs))%nat.
Proof.
  unfold add_list. destruct mf as [m|]; [destruct (existsb _ vs)|]; rewrite ?app_length; cbn [length]; lia.
Qed.

Lemma fold_add_length {T} (m : T -> T -> bool) l acc :
  (length acc <= length (fold_left (fun a y => add_list (Some m) y a) l acc) <= length acc + length l)%nat.
Proof.
  revert acc. induction l as [|y l IH]; intros acc; cbn [fold_left length]; [lia|].
  pose proof (IH (add_list (Some m) y acc)). pose proof (add_list_length (Some m) y acc). lia.
Qed.

Lemma delete_list_nil {T} m (v : T) vs :
  delete_list m v vs = [] <-> List.filter (fun y => negb (m y v)) vs = [].
Proof.
  unfold delete_list, drop_duplicates. split; [|by intros ->].
  destruct (List.filter _ vs) as [|a l]; [done|]. cbn [fold_left]. intros H. exfalso.
  pose proof (fold_add_length m l (add_list (Some m) a [])) as Hl. rewrite H in Hl.
  pose proof (add_list_length (Some m) a []) as H1. cbn [add_list existsb app length] in *. lia.
Qed.

Lemma filter_length_le {T} (f : T -> bool) l : (length (List.filter f l) <= length l)%nat.
Proof. induction l as [|a l IH]; cbn [List.filter length]; [lia|]. destruct (f a); cbn [length]; lia. Qed.

Lemma delete_list_length {T} m (v : T) vs : (length (delete_list m v vs) <= length vs)%nat.
Proof.
  unfold delete_list, drop_duplicates.
  pose proof (fold_add_length m (List.filter (fun y => negb (m y v)) vs) []) as H. cbn [length] in H.
  pose proof (filter_length_le (fun y => negb (m y v)) vs). lia.
Qed.

Section Del.
Context {T : Type} {Hkb : kbound T} (zero : T) (c : idcfg).
Notation w := (id_w c).
Context {Hwide : wide T c}.
Let Hw64 : w <= 64. Proof. destruct (@wide_64 T Hkb c Hwide) as [[? _]|[? _]]; lia. Qed.
Let Hw0 : 0 < w. Proof. apply Hwide. Qed.
Notation K := (2 ^ kbound_of T w).
Notation tree := (tree T).
Notation rep := (rep zero c).
Notation same := (same zero c).
Notation vsame := (vsame zero c).
Notation cfg_ok := (cfg_ok c).
Notation vals_at := (vals_at zero).

(** deleteVal. *)
Lemma vals_for_node_spec (s : tree) i nd vs : i <> 0 -> t_nodes s !! i = Some nd ->
  n_cnt nd = N.of_nat (length vs) -> vals_at s i vs -> vals_for_node zero s i = Ok vs.
Proof.
  intros Hi Hnd Hcnt Hv. unfold vals_for_node. rewrite (proj2 (N.eqb_neq i 0) Hi), (get_node_eq s i nd Hnd).
  cbn [rbind]. f_equal. rewrite Hcnt, Nat2N.id. apply list_eq_same_length with (n := length vs).
  1,2: by rewrite ?fmap_length, ?seq_length.
  intros k x y Hk Hx Hy. rewrite list_lookup_fmap, lookup_seq_lt in Hx by done. cbn in Hx. injection Hx as <-.
  by apply Hv.
Qed.

Lemma delete_slots_spec i k n : forall (s : tree), i < K -> cfg_ok s -> k + N.of_nat n <= 2 ^ w ->
  let s' := delete_slots s i k n in
  t_nodes s' = t_nodes s /\ ctl_same s s' /\ forall j, j < K -> j <> i -> vsame s s' j.
Proof.
  revert k. induction n as [|n IH]; intros k s Hi Hc Hk; cbn [delete_slots].
  { split; [done|]. split; [apply ctl_refl|]. intros j _ _. apply vsame_refl. }
  destruct (IH (k + 1) (with_vals s (delete (slot s i k) (t_vals s))) Hi Hc) as (H1 & H2 & H3); [lia|].
  split; [done|]. split; [done|]. intros j Hj Hji k' Hk'.
  destruct (@wide_64 T Hkb c Hwide) as [Hlt64|[_ Hsub]]; [|apply Hsub].
  rewrite (H3 j Hj Hji k' Hk' : val_at zero _ (slot s j k') = val_at zero _ (slot s j k')).
  unfold val_at. cbn [with_vals t_vals]. rewrite lookup_delete_ne; [done|]. intros Heq.
  apply (slot_inj c) in Heq as [Heq _]; [by subst|done|done|done|lia|done|done].
Qed.

Lemma put_back_spec i m v : forall buf (s : tree) nd acc del keep,
  cfg_ok s -> i < K -> t_nodes s !! i = Some nd -> n_cnt nd = N.of_nat (length acc) -> vals_at s i acc ->
  N.of_nat (length acc + length buf) <= 2 ^ w ->
  let vs := fold_left (fun a y => add_list (Some m) y a) (List.filter (fun y => negb (m y v)) buf) acc in
  exists s', put_back zero s i m v buf del keep =
      Ok (s', (del + count_matching m v buf, keep + N.of_nat (length (List.filter (fun y => negb (m y v)) buf)))) /\
    t_nodes s' = <[i := set_cnt (N.of_nat (length vs)) nd]> (t_nodes s) /\
    ctl_same s s' /\ vals_at s' i vs /\ forall j, j < K -> j <> i -> vsame s s' j.
Proof.
  induction buf as [|y buf IH]; intros s nd acc del keep Hc Hi Hnd Hcnt Hv Hlen.
  - cbn [List.filter fold_left put_back length count_matching]. exists s.
    split; [f_equal; f_equal; f_equal; unfold count_matching; cbn; lia|].
    assert (Hsame : set_cnt (N.of_nat (length acc)) nd = nd) by (destruct nd; cbn in *; by subst).
    rewrite Hsame. split; [by rewrite insert_id|]. split; [apply ctl_refl|]. split; [done|].
    intros j _ _. apply vsame_refl.
  - cbn [put_back]. unfold count_matching in *. cbn [List.filter length] in *. destruct (m y v) eqn:Hm; cbn [negb].
    + destruct (IH s nd acc (del + 1) keep Hc Hi Hnd Hcnt Hv) as (s' & He & Hr); [lia|].
      exists s'. split; [|exact Hr]. rewrite He. do 2 f_equal. f_equal. cbn [length]. lia.
    + pose proof (add_val_spec zero c s y i (Some m) None nd acc Hc Hi Hnd Hcnt Hv) as Hav.
      rewrite l_add_list in Hav. pose proof (add_list_length (Some m) y acc) as Hal.
      destruct Hav as (s1 & He1 & Hn1 & Hctl1 & Hv1 & Hf1); [lia|].
      rewrite He1. cbn [rbind fst fold_left].
      set (acc1 := add_list (Some m) y acc) in *.
      destruct (IH s1 (set_cnt (N.of_nat (length acc1)) nd) acc1 del (keep + 1)) as (s' & He & Hn & Hctl & Hvv & Hff).
      * by apply (cfg_ctl c s).
      * done.
      * by rewrite Hn1, lookup_insert.
      * done.
      * done.
      * lia.
      * exists s'. split; [rewrite He; do 2 f_equal; f_equal; cbn [length]; lia|].
        split. { rewrite Hn, Hn1, insert_insert. done. }
        split; [by apply (ctl_trans s s1)|]. split; [done|].
        intros j Hj Hji. apply (vsame_trans zero c s s1 s'); [apply Hctl1|by apply Hf1|by apply Hff].
Qed.

Lemma delete_val_spec (s : tree) i nd vs m v :
  cfg_ok s -> i <> 0 -> i < K -> t_nodes s !! i = Some nd -> n_cnt nd = N.of_nat (length vs) -> vals_at s i vs ->
  N.of_nat (length vs) <= 2 ^ w -> vs <> [] ->
  exists s', delete_val zero s i v m =
      Ok (s', (count_matching m v vs, N.of_nat (length (List.filter (fun y => negb (m y v)) vs)))) /\
    t_nodes s' = <[i := set_cnt (N.of_nat (length (delete_list m v vs))) nd]> (t_nodes s) /\
    ctl_same s s' /\ vals_at s' i (delete_list m v vs) /\ forall j, j < K -> j <> i -> vsame s s' j.
Proof.
  intros Hc Hi0 Hi Hnd Hcnt Hv Hlen Hne. unfold delete_val.
  rewrite (vals_for_node_spec s i nd vs Hi0 Hnd Hcnt Hv). cbn [rbind].
  rewrite (get_node_eq s i nd Hnd). cbn [rbind].
  destruct (delete_slots_spec i 0 (N.to_nat (n_cnt nd)) s Hi Hc) as (D1 & D2 & D3); [lia|].
  set (s1 := delete_slots s i 0 (N.to_nat (n_cnt nd))) in *.
  assert (Hnd1 : t_nodes s1 !! i = Some nd) by (by rewrite D1).
  rewrite (upd_node_eq s1 i _ nd Hnd1). cbn [rbind]. set (s2 := with_nodes s1 _).
  destruct (put_back_spec i m v vs s2 (set_cnt 0 nd) [] 0 0) as (s' & He & Hn & Hctl & Hvv & Hff).
  - apply (cfg_ctl c s1); [by apply (cfg_ctl c s)|by repeat split].
  - done.
  - cbn [s2 with_nodes t_nodes]. by rewrite lookup_insert.
  - done.
  - intros k x Hk. done.
  - cbn [length]. lia.
  - exists s'. split. { destruct vs; [done|]. rewrite He. done. }
    split. { rewrite Hn. cbn [s2 with_nodes t_nodes]. rewrite insert_insert, D1. done. }
    split. { apply (ctl_trans s s1); [done|]. by apply (ctl_trans s1 s2). }
    split; [done|]. intros j Hj Hji. apply (vsame_trans zero c s s1 s'); [apply D2|by apply D3|].
    apply (vsame_trans zero c s1 s2 s'); [done|done|by apply Hff].
Qed.

(** moveTags. *)
Lemma move_loop_spec a b n : forall k (s : tree), a < K -> b < K -> a <> b -> cfg_ok s -> k + N.of_nat n <= 2 ^ w ->
  let s' := move_loop zero s a b k n in
  t_nodes s' = t_nodes s /\ ctl_same s s' /\ (forall j, j < K -> j <> a -> j <> b -> vsame s s' j) /\
  (forall k', k' < 2 ^ w -> k' < k \/ k + N.of_nat n <= k' -> val_at zero s' (slot s b k') = val_at zero s (slot s b k')) /\
  (forall k', k <= k' < k + N.of_nat n -> val_at zero s' (slot s b k') = val_at zero s (slot s a k')).
Proof.
  induction n as [|n IH]; intros k s Ha Hb Hab Hc Hk; cbn [move_loop].
  { split; [done|]. split; [apply ctl_refl|]. split; [intros j _ _ _; apply vsame_refl|]. split; [done|]. lia. }
  set (s1 := with_vals s _).
  destruct (IH (k + 1) s1 Ha Hb Hab Hc) as (H1 & H2 & H3 & H4 & H5); [lia|].
  split; [done|]. split; [done|].
  destruct (@wide_64 T Hkb c Hwide) as [Hlt64|[_ Hsub]].
  2: { split; [intros j _ _ _ k' _; apply Hsub|]. split; [intros k' _ _; apply Hsub|intros k' _; apply Hsub]. }
  assert (Hne : forall j k', j < K -> k' < 2 ^ w -> j <> a -> j <> b \/ k' <> k ->
    val_at zero s1 (slot s j k') = val_at zero s (slot s j k')).
  { intros j k' Hj Hk' Hja Hjb. unfold val_at. cbn [s1 with_vals t_vals].
    rewrite lookup_delete_ne.
    2: { intros Heq. apply (slot_inj c) in Heq as [Heq _]; [by subst|done|done|done|lia|done|done]. }
    rewrite lookup_insert_ne; [done|]. intros Heq.
    apply (slot_inj c) in Heq as [Heq1 Heq2]; [|done|done|done|lia|done|done]. destruct Hjb; by subst. }
  split; [|split].
  - intros j Hj Hja Hjb k' Hk'. rewrite (H3 j Hj Hja Hjb k' Hk' : val_at zero _ (slot s j k') = val_at zero _ (slot s j k')).
    apply Hne; try done. by left.
  - intros k' Hk' Hor. rewrite (H4 k' Hk' : _ -> val_at zero _ (slot s b k') = val_at zero _ (slot s b k')) by lia.
    apply Hne; try done. right. lia.
  - intros k' Hk'. destruct (decide (k' = k)) as [->|Hkk].
    + rewrite (H4 k : _ -> _ -> val_at zero _ (slot s b k) = val_at zero _ (slot s b k)) by lia. unfold val_at at 1.
      cbn [s1 with_vals t_vals]. rewrite lookup_delete_ne.
      2: { intros Heq. apply (slot_inj c) in Heq as [Heq _]; [by subst|done|done|done|lia|done|lia]. }
      by rewrite lookup_insert.
    + rewrite (H5 k' : _ -> val_at zero _ (slot s b k') = val_at zero _ (slot s a k')) by lia.
      unfold val_at. change (slot s1 a k') with (slot s a k'). cbn [s1 with_vals t_vals].
      rewrite lookup_delete_ne.
      2: { intros Heq. apply (slot_inj c) in Heq as [_ Heq]; [lia|done|done|done|lia|done|lia]. }
      rewrite lookup_insert_ne; [done|].
      intros Heq. apply (slot_inj c) in Heq as [Heq _]; [by subst|done|done|done|lia|done|lia].
Qed.

Lemma move_tags_spec (s : tree) a b na nb vs :
  cfg_ok s -> a < K -> b < K -> a <> b -> t_nodes s !! a = Some na -> t_nodes s !! b = Some nb ->
  n_cnt na = N.of_nat (length vs) -> n_cnt nb = 0 -> vals_at s a vs -> N.of_nat (length vs) <= 2 ^ w ->
  exists s', move_tags zero s a b = Ok s' /\
    t_nodes s' = <[a := set_cnt 0 na]> (<[b := set_cnt (N.of_nat (length vs)) nb]> (t_nodes s)) /\
    ctl_same s s' /\ vals_at s' b vs /\ forall j, j < K -> j <> a -> j <> b -> vsame s s' j.
Proof.
  intros Hc Ha Hb Hab Hna Hnb Hca Hcb Hv Hlen. unfold move_tags. rewrite (get_node_eq s a na Hna). cbn [rbind].
  destruct (move_loop_spec a b (N.to_nat (n_cnt na)) 0 s Ha Hb Hab Hc) as (H1 & H2 & H3 & H4 & H5); [lia|].
  set (s1 := move_loop zero s a b 0 (N.to_nat (n_cnt na))) in *.
  assert (Hnb1 : t_nodes s1 !! b = Some nb) by (by rewrite H1).
  rewrite (upd_node_eq s1 b _ nb Hnb1). cbn [rbind].
  rewrite (upd_node_eq _ a _ na).
  2: { cbn [with_nodes t_nodes]. rewrite lookup_insert_ne, H1 by done. done. }
  eexists. split; [done|]. cbn [with_nodes t_nodes]. rewrite H1, Hcb, Hca. split; [done|].
  split. { apply (ctl_trans s s1); [done|]. by repeat split. }
  split.
  - intros k x Hx. apply lookup_lt_Some in Hx as Hk. rewrite <- (Hv k x Hx), <- H5 by lia.
    unfold val_at. cbn [with_nodes t_vals]. by rewrite (slot_ctl s) by apply H2.
  - intros j Hj Hja Hjb k Hk. by apply H3.
Qed.

(** What a deletion below node [p] achieves. *)
Record shrunk (s s' : tree) (t t' : gt T) (fr : list N) : Prop := Shrunk {
  sh_len : t_length s' = t_length s;
  sh_fn : t_leftfn s' = t_leftfn s;
  sh_gen : t_gen s' = t_gen s;
  sh_n : t_n s' = t_n s;
  sh_cap : t_cap s' = t_cap s;
  sh_avail : t_avail s' = fr ++ t_avail s;
  sh_dom : forall j, is_Some (t_nodes s' !! j) <-> is_Some (t_nodes s !! j);
  sh_root : root t' = root t;
  sh_rep : rep s' (root t') t';
  sh_fp : fp t ≡ₚ fr ++ fp t';
  sh_frame : forall j, j < K -> j ∉ fp t -> same s s' j }.

Lemma shrunk_cfg s s' t t' fr : shrunk s s' t t' fr -> cfg_ok s -> cfg_ok s'.
Proof. intros H [? ?]. split; [by rewrite (sh_len _ _ _ _ _ H)|by rewrite (sh_fn _ _ _ _ _ H)]. Qed.

Lemma shrunk_refl s t : rep s (root t) t -> shrunk s s t t [].
Proof. intros H. by constructor. Qed.

Lemma shrunk_trans s1 s2 s3 t1 t2 t3 f1 f2 :
  shrunk s1 s2 t1 t2 f1 -> shrunk s2 s3 t2 t3 f2 -> shrunk s1 s3 t1 t3 (f2 ++ f1).
Proof.
  intros A B. constructor.
  - rewrite (sh_len _ _ _ _ _ B). apply A.
  - rewrite (sh_fn _ _ _ _ _ B). apply A.
  - rewrite (sh_gen _ _ _ _ _ B). apply A.
  - rewrite (sh_n _ _ _ _ _ B). apply A.
  - rewrite (sh_cap _ _ _ _ _ B). apply A.
  - rewrite (sh_avail _ _ _ _ _ B), (sh_avail _ _ _ _ _ A). by rewrite app_assoc.
  - intros j. rewrite (sh_dom _ _ _ _ _ B). apply A.
  - rewrite (sh_root _ _ _ _ _ B). apply A.
  - apply B.
  - rewrite (sh_fp _ _ _ _ _ A), (sh_fp _ _ _ _ _ B), app_assoc. by rewrite (Permutation_app_comm f1).
  - intros j Hj Hn. assert (Hn2 : j ∉ fp t2).
    { intros H. apply Hn. rewrite (sh_fp _ _ _ _ _ A). apply elem_of_app. by right. }
    apply (same_trans zero c s1 s2 s3); [apply A|by apply A|by apply B].
Qed.

Lemma rep_nodeD s p pb pvs d t o :
  rep s p (nodeD p pb pvs d t o) <->
  p <> 0 /\ p < K /\ N.of_nat (length pvs) <= 2 ^ w /\
  exists nd, t_nodes s !! p = Some nd /\ n_len nd = N.of_nat (length pb) /\
    bits w (n_id nd) (length pb) = pb /\ n_cnt nd = N.of_nat (length pvs) /\
    vals_at s p pvs /\ rep s (n_dir d nd) t /\ rep s (n_dir (negb d) nd) o.
Proof.
  unfold nodeD, n_dir. destruct d; cbn [TreeHeap.rep negb]; split.
  - intros (_ & A & B & D & nd & N1 & N2 & N3 & N4 & N5 & N6 & N7).
    split; [done|]. split; [done|]. split; [done|]. by exists nd.
  - intros (A & B & D & nd & N1 & N2 & N3 & N4 & N5 & N6 & N7).
    split; [done|]. split; [done|]. split; [done|]. split; [done|]. by exists nd.
  - intros (_ & A & B & D & nd & N1 & N2 & N3 & N4 & N5 & N6 & N7).
    split; [done|]. split; [done|]. split; [done|]. by exists nd.
  - intros (A & B & D & nd & N1 & N2 & N3 & N4 & N5 & N6 & N7).
    split; [done|]. split; [done|]. split; [done|]. split; [done|]. by exists nd.
Qed.

(** A change within one child seen from the node. *)
Lemma shrunk_below s s' p pb pvs d t t' o fr :
  rep s p (nodeD p pb pvs d t o) -> NoDup (fp (nodeD p pb pvs d t o)) ->
  shrunk s s' t t' fr -> shrunk s s' (nodeD p pb pvs d t o) (nodeD p pb pvs d t' o) fr.
Proof.
  intros Hr Hnd H. rewrite fp_nodeD in Hnd. apply NoDup_cons in Hnd as [Hp Hnd].
  apply NoDup_app in Hnd as (_ & Hdis & _). rewrite elem_of_app in Hp.
  pose proof Hr as (Hp0 & HpK & Hvl & nd & N1 & N2 & N3 & N4 & N5 & N6 & N7)%rep_nodeD.
  assert (Hps : same s s' p) by (apply H; [done|tauto]).
  constructor; try apply H; try done.
  - cbn [root nodeD]. apply rep_nodeD. split; [done|]. split; [done|]. split; [done|]. exists nd.
    split; [by rewrite (proj1 Hps)|]. split; [done|]. split; [done|]. split; [done|].
    split; [apply (vals_at_same zero c s s'); [apply H|apply Hps|done|done]|].
    split.
    + rewrite (rep_root zero c s _ _ N6), <- (sh_root _ _ _ _ _ H). apply H.
    + apply (rep_frame zero c s s'); [apply H| |done]. intros j Hj. apply H.
      * exact (rep_lt_K zero c s _ o j N7 Hj).
      * intros Hj'. exact (Hdis j Hj' Hj).
  - rewrite !fp_nodeD. rewrite (sh_fp _ _ _ _ _ H). rewrite <- app_assoc. by apply Permutation_cons_app.
  - intros j Hj. rewrite fp_nodeD. intros Hn. apply H; [done|]. intros Hj'. apply Hn. right. apply elem_of_app. by left.
Qed.
End Del.
