(** The node array and the value map as a representation of a trie; the
    primitive operations. *)
From Verif Require Export TreeGhost.
From Coq Require Import Lia ZifyBool ZifyNat ZifyN.
Local Open Scope N_scope.

(** addVal on the list of values. *)
Definition l_add {T} (mf : option (T -> T -> bool)) (uf : option (T -> T)) (v : T) (vs : list T) : list T * bool :=
  match mf with
  | None => (vs ++ [v], true)
  | Some m =>
      match list_find (fun y => m y v = true) vs with
      | Some (k, y) => (match uf with Some u => <[k := u y]> vs | None => vs end, false)
      | None => (vs ++ [v], true)
      end
  end.

(** 2 ^ [kbound_of T w] bounds the indexes of the nodes; by default so that no
    two of them share a key. *)
Class kbound (T : Type) : Type := Kbound { kbound_n : N -> N }.
Definition kbound_of (T : Type) {H : kbound T} (w : N) : N := kbound_n w.
Global Instance kbound_keys (T : Type) : kbound T | 10 := Kbound T kbits.

(** When the 64-bit keys work.  With the width 64 all nodes have the key 0; the tree
    still works when its values cannot be told apart. *)
Definition narrow (T : Type) {H : kbound T} (c : idcfg) : Prop :=
  id_w c < 64 /\ kbound_of T (id_w c) = 64 - id_w c.
Class wide (T : Type) {H : kbound T} (c : idcfg) : Prop := Wide {
  wide_64 : narrow T c \/ (id_w c <= 64 /\ forall a b : T, a = b);
  wide_0 : 0 < id_w c;
  wide_K : 0 < kbound_of T (id_w c) }.

Lemma kbits_pos w : w < 64 \/ w = 64 -> 0 < kbits w.
Proof. unfold kbits. destruct (N.eqb_spec w 64); lia. Qed.
Lemma kbits_narrow w : w < 64 -> kbits w = 64 - w.
Proof. unfold kbits. destruct (N.eqb_spec w 64); lia. Qed.

Section Heap.
Context {T : Type} {Hkb : kbound T} (zero : T) (c : idcfg).
Notation w := (id_w c).
Context {Hwide : wide T c}.
Let Hw64 : w <= 64. Proof. destruct (@wide_64 T Hkb c Hwide) as [[? _]|[? _]]; lia. Qed.
Let Hw0 : 0 < w. Proof. apply Hwide. Qed.
Notation K := (2 ^ kbound_of T w).
Notation tree := (tree T).

Definition cfg_ok (s : tree) : Prop :=
  t_length s = w /\ t_leftfn s = Some (is_left_bit_set_fn c).

(** Everything but nodes and values. *)
Definition ctl_same (s s' : tree) : Prop :=
  t_leftfn s' = t_leftfn s /\ t_length s' = t_length s /\ t_n s' = t_n s /\ t_cap s' = t_cap s /\
  t_avail s' = t_avail s /\ t_gen s' = t_gen s.

Lemma ctl_refl s : ctl_same s s.
Proof. by repeat split. Qed.
Lemma ctl_trans s1 s2 s3 : ctl_same s1 s2 -> ctl_same s2 s3 -> ctl_same s1 s3.
Proof. intros (A1 & A2 & A3 & A4 & A5 & A6) (B1 & B2 & B3 & B4 & B5 & B6). repeat split; congruence. Qed.
Lemma ctl_nodes s ns : ctl_same s (with_nodes s ns).
Proof. by repeat split. Qed.
Lemma cfg_ctl s s' : cfg_ok s -> ctl_same s s' -> cfg_ok s'.
Proof. intros [? ?] (? & ? & _). split; congruence. Qed.

Lemma get_node_eq (s : tree) i nd : t_nodes s !! i = Some nd -> get_node s i = Ok nd.
Proof. intros H. unfold get_node. by rewrite H. Qed.
Lemma upd_node_eq (s : tree) i f nd : t_nodes s !! i = Some nd ->
  upd_node s i f = Ok (with_nodes s (<[i := f nd]> (t_nodes s))).
Proof. intros H. unfold upd_node. by rewrite (get_node_eq s i nd H). Qed.

(** Slots. *)
Lemma slot_eq s i k : cfg_ok s -> i < K -> k < 2 ^ w -> narrow T c -> slot s i k = i * 2 ^ w + k.
Proof.
  intros [Hl _] Hi Hk [Hlt64 EK]. rewrite EK in Hi. unfold slot, key, ushl, uadd. rewrite Hl, N.shiftl_mul_pow2.
  assert (HK : 2 ^ (64 - w) * 2 ^ w = 2 ^ 64). { rewrite <- N.pow_add_r. f_equal. lia. }
  assert (Hp : 0 < 2 ^ w) by (apply N.neq_0_lt_0, N.pow_nonzero; done).
  assert (Hlt : i * 2 ^ w + k < 2 ^ 64).
  { rewrite <- HK. apply N.lt_le_trans with ((i + 1) * 2 ^ w); [lia|]. apply N.mul_le_mono_r. lia. }
  rewrite (N.mod_small (i * 2 ^ w)) by lia. by apply N.mod_small.
Qed.

Lemma slot_inj s i k j k' : narrow T c -> cfg_ok s -> i < K -> k < 2 ^ w -> j < K -> k' < 2 ^ w ->
  slot s i k = slot s j k' -> i = j /\ k = k'.
Proof.
  intros Hlt64 Hc Hi Hk Hj Hk' H. rewrite !slot_eq in H by done.
  assert (Hp : 2 ^ w <> 0) by (by apply N.pow_nonzero).
  assert (Hij : i = j).
  { assert (H1 : (i * 2 ^ w + k) / 2 ^ w = i).
    { rewrite N.add_comm, N.div_add, N.div_small; [lia|done..]. }
    rewrite H in H1. rewrite N.add_comm, N.div_add, N.div_small in H1; [lia|done..]. }
  split; [done|]. subst j. set (P := i * 2 ^ w) in *. clearbody P. lia.
Qed.

Lemma slot_ctl (s s' : tree) i k : t_length s' = t_length s -> slot s' i k = slot s i k.
Proof. intros H. unfold slot, key. by rewrite H. Qed.

Definition vals_at (s : tree) (i : N) (vs : list T) : Prop :=
  forall k x, vs !! k = Some x -> val_at zero s (slot s i (N.of_nat k)) = x.
Definition vsame (s s' : tree) (j : N) : Prop :=
  forall k, k < 2 ^ w -> val_at zero s' (slot s j k) = val_at zero s (slot s j k).
Definition same (s s' : tree) (j : N) : Prop :=
  t_nodes s' !! j = t_nodes s !! j /\ vsame s s' j.

Lemma vsame_refl s j : vsame s s j. Proof. done. Qed.
Lemma vsame_trans s1 s2 s3 j : t_length s2 = t_length s1 -> vsame s1 s2 j -> vsame s2 s3 j -> vsame s1 s3 j.
Proof.
  intros Hl H1 H2 k Hk. rewrite <- (H1 k Hk). specialize (H2 k Hk).
  by rewrite !(slot_ctl s1 s2) in H2 by done.
Qed.
Lemma same_trans s1 s2 s3 j : t_length s2 = t_length s1 -> same s1 s2 j -> same s2 s3 j -> same s1 s3 j.
Proof. intros Hl [A1 A2] [B1 B2]. split; [congruence|by eapply vsame_trans]. Qed.

Lemma vals_at_same s s' i vs : t_length s' = t_length s -> vsame s s' i ->
  N.of_nat (length vs) <= 2 ^ w -> vals_at s i vs -> vals_at s' i vs.
Proof.
  intros Hl Hv Hlen H k x Hk. rewrite <- (H k x Hk).
  rewrite (slot_ctl s s') by done. apply Hv. apply lookup_lt_Some in Hk. lia.
Qed.

(** The representation. *)
Fixpoint rep (s : tree) (i : N) (t : gt T) : Prop :=
  match t with
  | GNil => i = 0
  | GNode j b vs l r =>
      i = j /\ j <> 0 /\ j < K /\ N.of_nat (length vs) <= 2 ^ w /\
      exists nd, t_nodes s !! j = Some nd /\ n_len nd = N.of_nat (length b) /\
        bits w (n_id nd) (length b) = b /\ n_cnt nd = N.of_nat (length vs) /\
        vals_at s j vs /\ rep s (n_left nd) l /\ rep s (n_right nd) r
  end.

Lemma rep_root s i t : rep s i t -> i = root t.
Proof. by destruct t; [|intros (-> & _)]. Qed.

Lemma rep_frame s s' i t : t_length s' = t_length s -> (forall j, j ∈ fp t -> same s s' j) ->
  rep s i t -> rep s' i t.
Proof.
  intros Hl. revert i. induction t as [|j b vs l IHl r IHr]; intros i Hs; cbn [rep fp] in *; [done|].
  intros (-> & H1 & H2 & H3 & nd & N1 & N2 & N3 & N4 & N5 & N6 & N7).
  assert (Hj : same s s' j) by (apply Hs; left).
  split; [done|]. split; [done|]. split; [done|]. split; [done|]. exists nd.
  split; [by rewrite (proj1 Hj)|]. split; [done|]. split; [done|]. split; [done|].
  split; [eapply vals_at_same; [done|apply Hj|done|done]|].
  split.
  - apply IHl; [|done]. intros x Hx. apply Hs. right. apply elem_of_app. by left.
  - apply IHr; [|done]. intros x Hx. apply Hs. right. apply elem_of_app. by right.
Qed.

Lemma rep_dom s i t j : rep s i t -> j ∈ fp t -> is_Some (t_nodes s !! j) /\ j <> 0 /\ j < K.
Proof.
  revert i. induction t as [|k b vs l IHl r IHr]; intros i; cbn [rep fp]; [by rewrite elem_of_nil|].
  intros (-> & H1 & H2 & H3 & nd & N1 & N2 & N3 & N4 & N5 & N6 & N7).
  rewrite elem_of_cons, elem_of_app. intros [->|[Hj|Hj]]; [|by eapply IHl|by eapply IHr].
  split; [by exists nd|done].
Qed.

(** addVal. *)
Lemma find_match_spec s m v i vs : vals_at s i vs -> forall k n us,
  (forall k' x, us !! k' = Some x -> vs !! (k + k')%nat = Some x) -> length us = n ->
  find_match zero s m v i (N.of_nat k) n =
  match list_find (fun y => m y v = true) us with Some (j, _) => Some (N.of_nat (k + j)) | None => None end.
Proof.
  intros Hv k n us. revert k n. induction us as [|u us IH]; intros k n Hus Hn; cbn [length] in Hn; subst n.
  - done.
  - cbn [find_match list_find]. assert (Hu : val_at zero s (slot s i (N.of_nat k)) = u).
    { apply Hv. specialize (Hus 0%nat u eq_refl). by rewrite Nat.add_0_r in Hus. }
    rewrite Hu. destruct (decide (m u v = true)) as [Hm|Hm].
    + rewrite Hm. f_equal. lia.
    + apply Bool.not_true_is_false in Hm. rewrite Hm.
      replace (N.of_nat k + 1) with (N.of_nat (S k)) by lia.
      rewrite (IH (S k)); [|intros k' x Hx|done].
      * destruct (list_find _ us) as [[j y]|]; cbn; [|done]. f_equal. lia.
      * replace (S k + k')%nat with (k + S k')%nat by lia. by apply Hus.
Qed.

Lemma add_val_spec s v i mf uf nd vs :
  cfg_ok s -> i < K -> t_nodes s !! i = Some nd -> n_cnt nd = N.of_nat (length vs) -> vals_at s i vs ->
  N.of_nat (length (fst (l_add mf uf v vs))) <= 2 ^ w ->
  exists s', add_val zero s v i mf uf = Ok (s', snd (l_add mf uf v vs)) /\
    t_nodes s' = <[i := set_cnt (N.of_nat (length (fst (l_add mf uf v vs)))) nd]> (t_nodes s) /\
    ctl_same s s' /\ vals_at s' i (fst (l_add mf uf v vs)) /\
    forall j, j < K -> j <> i -> vsame s s' j.
Proof.
  intros Hc Hi Hnd Hcnt Hv Hlen. unfold add_val. rewrite (get_node_eq s i nd Hnd). cbn [rbind].
  assert (Hsame : set_cnt (N.of_nat (length vs)) nd = nd) by (destruct nd; cbn in *; by subst).
  assert (Hfresh : forall mm, l_add mf uf v vs = (vs ++ [v], true) -> mm = @None N ->
    exists s', match mm with
     | Some k => Ok (match uf with
          | Some u => with_vals s (<[slot s i k := u (val_at zero s (slot s i k))]> (t_vals s))
          | None => s end, false)
     | None => let s1 := with_vals s (<[slot s i (n_cnt nd) := v]> (t_vals s)) in
         do s2 <- upd_node s1 i (set_cnt (n_cnt nd + 1)); Ok (s2, true)
     end = Ok (s', true) /\
    t_nodes s' = <[i := set_cnt (N.of_nat (length (vs ++ [v]))) nd]> (t_nodes s) /\
    ctl_same s s' /\ vals_at s' i (vs ++ [v]) /\ forall j, j < K -> j <> i -> vsame s s' j).
  { intros mm He ->. rewrite He in Hlen. cbn [fst] in Hlen. cbv zeta.
    rewrite (upd_node_eq _ i _ nd) by done. cbn [rbind]. eexists. split; [done|].
    rewrite app_length in Hlen |- *. cbn [length] in Hlen |- *.
    split; [cbn [with_vals with_nodes t_nodes]; rewrite Hcnt; do 2 f_equal; lia|].
    split; [by repeat split|].
    destruct (@wide_64 T Hkb c Hwide) as [Hlt64|[_ Hsub]].
    2: { split; [intros k x _; apply Hsub|intros j _ _ k _; apply Hsub]. }
    split.
    - intros k x Hx. unfold val_at. cbn [with_nodes with_vals t_vals].
      rewrite (slot_ctl s) by done. rewrite Hcnt.
      apply lookup_app_Some in Hx as [Hx|[Hge Hx]].
      + rewrite lookup_insert_ne; [by apply Hv|]. intros Heq. apply lookup_lt_Some in Hx.
        apply slot_inj in Heq as [_ Heq]; [lia|done|done|done| |done|]; lia.
      + apply list_lookup_singleton_Some in Hx as [Hk ->].
        assert (k = length vs) as -> by lia. by rewrite lookup_insert.
    - intros j Hj Hji k Hk. unfold val_at. cbn [with_nodes with_vals t_vals]. rewrite lookup_insert_ne; [done|].
      intros Heq. rewrite Hcnt in Heq. apply slot_inj in Heq as [Heq _]; [by subst|done|done|done|lia|done|done]. }
  destruct mf as [m|].
  2: { cbn [l_add fst snd]. by apply (Hfresh None). }
  pose proof (find_match_spec s m v i vs Hv 0 (N.to_nat (n_cnt nd)) vs) as Hf.
  change (N.of_nat 0) with 0 in Hf. rewrite Hf; [|done|by rewrite Hcnt, Nat2N.id].
  unfold l_add in *. destruct (list_find (fun y => m y v = true) vs) as [[k y]|] eqn:Hfind.
  2: { by apply (Hfresh None). }
  cbn [fst snd] in *. apply list_find_Some in Hfind as (Hk & Hm & _).
  change (0 + k)%nat with k.
  destruct uf as [u|].
  - eexists. split; [done|]. rewrite insert_length in *. rewrite Hsame. cbn [with_vals t_nodes].
    split; [by rewrite insert_id|]. split; [by repeat split|]. apply lookup_lt_Some in Hk as Hkl.
    assert (Hku : val_at zero s (slot s i (N.of_nat k)) = y) by (by apply Hv).
    destruct (@wide_64 T Hkb c Hwide) as [Hlt64|[_ Hsub]].
    2: { split; [intros k' x _; apply Hsub|intros j _ _ k' _; apply Hsub]. }
    split.
    + intros k' x Hx. unfold val_at. cbn [with_vals t_vals]. rewrite (slot_ctl s) by done.
      apply lookup_lt_Some in Hx as Hkl'. rewrite insert_length in Hkl'.
      destruct (decide (k' = k)) as [->|Hne].
      * rewrite lookup_insert. rewrite list_lookup_insert in Hx by done. injection Hx as <-.
        change (u (val_at zero s (slot s i (N.of_nat k))) = u y). by rewrite Hku.
      * rewrite list_lookup_insert_ne in Hx by done. rewrite lookup_insert_ne; [by apply Hv|].
        intros Heq. apply slot_inj in Heq as [_ Heq]; [lia|done|done|done| |done|]; lia.
    + intros j Hj Hji k' Hk'. unfold val_at. cbn [with_vals t_vals]. rewrite lookup_insert_ne; [done|].
      intros Heq. apply slot_inj in Heq as [Heq _]; [by subst|done|done|done|lia|done|done].
  - eexists. split; [done|]. rewrite Hsame. split; [by rewrite insert_id|]. split; [apply ctl_refl|]. done.
Qed.

(** newNode. *)
Record alloc_ok (s : tree) : Prop := AllocOk {
  ao_dom : forall j, j < t_n s <-> is_Some (t_nodes s !! j);
  ao_nodup : NoDup (t_avail s);
  ao_av : forall j, j ∈ t_avail s -> 2 <= j < t_n s;
  ao_cap : t_n s <= t_cap s;
  ao_2 : 2 <= t_n s;
  ao_K : t_n s <= K }.
Definition fresh (s : tree) (j : N) : Prop := j ∈ t_avail s \/ t_n s <= j.
Notation navail s := (N.of_nat (length (t_avail s))).
(** k more nodes can be had without moving the array and without key overflow. *)
Definition can (k : N) (s : tree) : Prop :=
  t_n s + k <= t_cap s + navail s /\ t_n s + k <= K + navail s.

Lemma alloc_ctl s s' : ctl_same s s' -> (forall j, is_Some (t_nodes s' !! j) <-> is_Some (t_nodes s !! j)) ->
  alloc_ok s -> alloc_ok s'.
Proof.
  intros (A1 & A2 & A3 & A4 & A5 & A6) Hd [D1 D2 D3 D4 D5 D6].
  constructor; rewrite ?A3, ?A4, ?A5; try done. intros j. by rewrite Hd.
Qed.

Lemma can_ctl k s s' : ctl_same s s' -> can k s -> can k s'.
Proof. intros (A1 & A2 & A3 & A4 & A5 & A6). unfold can. by rewrite A3, A4, A5. Qed.

Lemma fresh_ctl s s' j : ctl_same s s' -> fresh s' j <-> fresh s j.
Proof. intros (A1 & A2 & A3 & A4 & A5 & A6). unfold fresh. by rewrite A3, A5. Qed.

Lemma not_fresh s j : alloc_ok s -> is_Some (t_nodes s !! j) -> j ∉ t_avail s -> ~ fresh s j.
Proof. intros Ha Hj Hn [H|H]; [done|]. apply (ao_dom s Ha) in Hj. lia. Qed.

(** The bookkeeping of allocations: [nw] are the slots taken. *)
Record taken (s s' : tree) (nw : list N) : Prop := Taken {
  tk_len : t_length s' = t_length s;
  tk_fn : t_leftfn s' = t_leftfn s;
  tk_gen : t_gen s' = t_gen s;
  tk_alloc : alloc_ok s';
  tk_nw : forall j, j ∈ nw -> fresh s j;
  tk_nodup : NoDup nw;
  tk_fresh : forall j, fresh s' j <-> fresh s j /\ j ∉ nw;
  tk_acct : t_n s' + navail s = t_n s + N.of_nat (length nw) + navail s';
  tk_mono : t_n s <= t_n s';
  tk_full : t_n s < t_n s' -> t_avail s' = [] }.

Lemma taken_nil s s' : ctl_same s s' -> alloc_ok s' -> taken s s' [].
Proof.
  intros (A1 & A2 & A3 & A4 & A5 & A6) Ha. constructor; try done.
  - intros j Hj. by apply elem_of_nil in Hj.
  - constructor.
  - intros j. unfold fresh. rewrite A3, A5. split; [|tauto]. intros H. split; [done|]. apply not_elem_of_nil.
  - rewrite A3, A5. cbn [length]. lia.
  - rewrite A3. lia.
  - rewrite A3. lia.
Qed.

Lemma taken_trans s1 s2 s3 n1 n2 : taken s1 s2 n1 -> taken s2 s3 n2 -> taken s1 s3 (n2 ++ n1).
Proof.
  intros A B. constructor.
  - rewrite (tk_len _ _ _ B). apply A.
  - rewrite (tk_fn _ _ _ B). apply A.
  - rewrite (tk_gen _ _ _ B). apply A.
  - apply B.
  - intros j Hj. apply elem_of_app in Hj as [Hj|Hj]; [|by apply A].
    apply (tk_nw _ _ _ B) in Hj. by apply (tk_fresh _ _ _ A) in Hj as [? _].
  - apply NoDup_app. split; [apply B|]. split; [|apply A]. intros j Hj.
    apply (tk_nw _ _ _ B) in Hj. by apply (tk_fresh _ _ _ A) in Hj as [_ ?].
  - intros j. rewrite (tk_fresh _ _ _ B), (tk_fresh _ _ _ A), elem_of_app. tauto.
  - pose proof (tk_acct _ _ _ A). pose proof (tk_acct _ _ _ B). rewrite app_length. lia.
  - pose proof (tk_mono _ _ _ A). pose proof (tk_mono _ _ _ B). lia.
  - intros H. destruct (N.lt_ge_cases (t_n s2) (t_n s3)) as [H3|H3]; [by apply B|].
    pose proof (tk_mono _ _ _ A). pose proof (tk_mono _ _ _ B).
    assert (Hav : t_avail s2 = []) by (apply A; lia).
    pose proof (tk_acct _ _ _ B) as Hacc. rewrite Hav in Hacc. cbn [length] in Hacc.
    destruct (t_avail s3); [done|]. cbn [length] in Hacc. lia.
Qed.

Lemma taken_ctl_r s1 s2 s3 nw : taken s1 s2 nw -> ctl_same s2 s3 -> alloc_ok s3 -> taken s1 s3 nw.
Proof. intros A B Ha. apply (taken_trans s1 s2 s3 nw []); [done|]. by apply taken_nil. Qed.

Lemma new_node_spec s x len k : alloc_ok s -> can (k + 1) s ->
  exists s' j, new_node s x len = Ok (s', j) /\ j <> 0 /\ j <> 1 /\ j < K /\ j < t_n s' /\
    t_nodes s' = <[j := Node 0 0 (i_id x) len 0]> (t_nodes s) /\ t_vals s' = t_vals s /\
    taken s s' [j] /\ can k s'.
Proof.
  intros Ha [Hc1 Hc2]. destruct Ha as [D1 D2 D3 D4 D5 D6] eqn:HHa. clear HHa.
  unfold new_node. destruct (t_avail s) as [|j av] eqn:Hav.
  - cbn [length] in *. assert (Hlt : t_cap s <=? t_n s = false) by lia. rewrite Hlt.
    eexists _, (t_n s). split; [done|]. cbn [t_n t_nodes t_vals].
    split; [lia|]. split; [lia|]. split; [lia|]. split; [lia|]. split; [done|]. split; [done|]. split.
    + constructor; try done; cbn [t_n t_nodes t_vals t_avail t_cap t_leftfn t_length t_gen].
      * constructor; cbn [t_n t_nodes t_vals t_avail t_cap t_leftfn t_length t_gen].
        -- intros j. destruct (decide (j = t_n s)) as [->|Hj].
           ++ rewrite lookup_insert. split; [by eexists|lia].
           ++ rewrite lookup_insert_ne by done. rewrite <- D1. lia.
        -- constructor.
        -- intros j Hj. by apply elem_of_nil in Hj.
        -- lia.
        -- lia.
        -- lia.
      * intros j Hj. apply elem_of_list_singleton in Hj as ->. right. lia.
      * apply NoDup_singleton.
      * intros j. unfold fresh. cbn [t_n t_avail]. rewrite Hav, !elem_of_nil, elem_of_list_singleton. lia.
      * rewrite Hav. cbn [length]. lia.
      * lia.
    + unfold can. cbn [t_n t_avail t_cap length]. lia.
  - assert (Hj : 2 <= j < t_n s) by (apply D3; left).
    apply NoDup_cons in D2 as [D2a D2b]. destruct (proj1 (D1 j) (proj2 Hj)) as [nd Hnd].
    rewrite (upd_node_eq _ j _ nd) by done. cbn [rbind].
    eexists _, j. split; [done|]. cbn [with_nodes with_avail t_n t_nodes t_vals].
    split; [lia|]. split; [lia|]. split; [lia|]. split; [lia|]. split; [done|]. split; [done|]. split.
    + constructor; try done; cbn [with_nodes with_avail t_n t_nodes t_vals t_avail t_cap t_leftfn t_length t_gen].
      * constructor; cbn [with_nodes with_avail t_n t_nodes t_vals t_avail t_cap t_leftfn t_length t_gen]; try done.
        -- intros j'. rewrite D1. destruct (decide (j' = j)) as [->|Hj'].
           ++ rewrite lookup_insert. split; [by eexists|by intros _; exists nd].
           ++ by rewrite lookup_insert_ne.
        -- intros j' Hj'. apply D3. by right.
      * intros j' Hj'. apply elem_of_list_singleton in Hj' as ->. left. rewrite Hav. left.
      * apply NoDup_singleton.
      * intros j'. unfold fresh. cbn [with_nodes with_avail t_n t_avail]. rewrite Hav, elem_of_cons, elem_of_list_singleton.
        split.
        -- intros [H|H]; [split; [by left; right|by intros ->]|split; [by right|lia]].
        -- intros [[[->|H]|H] Hne]; [done|by left|by right].
      * rewrite Hav. cbn [length]. lia.
      * lia.
    + unfold can. cbn [with_nodes with_avail t_n t_avail t_cap length] in *. lia.
Qed.
End Heap.
