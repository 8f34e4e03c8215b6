(** The value map holds the values of the nodes and nothing else. *)
From Verif Require Export TreeIter.
From Coq Require Import Lia ZifyBool ZifyNat ZifyN.
Local Open Scope N_scope.

Section All.
Context {T : Type} {Hkb : kbound T} (zero : T) (c : idcfg).
Context {Hwide : wide T c}.

(** All live indexes belong to the trie. *)
Lemma inv_all s t j : inv zero c s t -> j < t_n s -> j <> 0 -> j ∉ t_avail s -> j ∈ fp t.
Proof.
  intros [Hc Ha Hr Hwf Hnd Hlv Hct] Hj Hj0 Hja.
  set (all := N.of_nat <$> seq 0 (N.to_nat (t_n s))).
  assert (Hin : forall k, k ∈ all <-> k < t_n s).
  { intros k. unfold all. rewrite elem_of_list_fmap. split.
    - intros (y & -> & Hy). apply elem_of_seq in Hy. lia.
    - intros Hk. exists (N.to_nat k). split; [lia|]. apply elem_of_seq. lia. }
  assert (Hsub : 0 :: fp t ++ t_avail s ⊆+ all).
  { apply NoDup_submseteq.
    - apply NoDup_cons. split.
      + rewrite elem_of_app. intros [H|H].
        * by apply (rep_dom zero c s _ _ 0 Hr) in H as (_ & ? & _).
        * apply (ao_av _ _ Ha) in H. lia.
      + apply NoDup_app. split; [done|]. split; [|apply Ha]. intros k Hk Hk'. apply (Hlv k Hk). by left.
    - intros k. rewrite elem_of_cons, elem_of_app, Hin. pose proof (ao_2 _ _ Ha) as H2. intros [->|[Hk|Hk]].
      + lia.
      + apply (rep_dom zero c s _ _ k Hr) in Hk as (Hk & _). by apply (ao_dom _ _ Ha).
      + apply (ao_av _ _ Ha) in Hk. lia. }
  assert (Hperm : 0 :: fp t ++ t_avail s ≡ₚ all).
  { apply submseteq_Permutation_length_le; [|done]. unfold all. rewrite fmap_length, seq_length.
    cbn [length]. rewrite app_length. lia. }
  assert (Hj' : j ∈ 0 :: fp t ++ t_avail s) by (rewrite Hperm; by apply Hin).
  rewrite elem_of_cons, elem_of_app in Hj'. tauto.
Qed.

End All.

Section Vals.
Context {T : Type} {Hkb : kbound T} (zero : T) (c : idcfg).
Notation w := (id_w c).
Context {Hwide : wide T c}.
Let Hw64 : w <= 64. Proof. destruct (@wide_64 T Hkb c Hwide) as [[? _]|[? _]]; lia. Qed.
Let Hw0 : 0 < w. Proof. apply Hwide. Qed.
Context (Hlt : narrow T c).
Notation K := (2 ^ kbound_of T w).
Notation tree := (tree T).

(** The number of values of a node, 0 for no node. *)
Definition cnt (s : tree) (i : N) : N := match t_nodes s !! i with Some nd => n_cnt nd | None => 0 end.

Record tidy (s : tree) : Prop := Tidy {
  td_in : forall k, is_Some (t_vals s !! k) -> exists i j, j < cnt s i /\ k = slot s i j;
  td_all : forall i j, j < cnt s i -> is_Some (t_vals s !! slot s i j);
  td_dom : forall i, t_n s <= i -> t_nodes s !! i = None }.
(** Nodes out of use have no values. *)
Definition idle (s : tree) : Prop := cnt s 0 = 0 /\ forall i, i ∈ t_avail s -> cnt s i = 0.
(** Numbers small enough for different keys. *)
Definition small (s : tree) : Prop :=
  t_length s = w /\ forall i nd, t_nodes s !! i = Some nd -> i < K /\ n_cnt nd <= 2 ^ w.

Lemma cnt_zero i : cnt (tree_zero c) i = 0.
Proof.
  unfold cnt, tree_zero, new_tree. cbn [t_nodes].
  destruct (decide (i = 1)) as [->|H1]; [by rewrite lookup_insert|]. rewrite lookup_insert_ne by done.
  destruct (decide (i = 0)) as [->|H2]; [by rewrite lookup_insert|]. by rewrite lookup_insert_ne, lookup_empty.
Qed.
Lemma tidy_zero : tidy (tree_zero c).
Proof.
  split.
  - intros k [x Hx]. cbn in Hx. by apply lookup_empty_Some in Hx.
  - intros i j. rewrite cnt_zero. lia.
  - intros i Hi. cbn in *. rewrite !lookup_insert_ne by lia. apply lookup_empty.
Qed.
Lemma idle_zero : idle (tree_zero c).
Proof. split; [apply cnt_zero|]. intros i _. apply cnt_zero. Qed.

Lemma upd_Ok (s s' : tree) i f : upd_node s i f = Ok s' ->
  exists nd, t_nodes s !! i = Some nd /\ s' = with_nodes s (<[i := f nd]> (t_nodes s)).
Proof.
  unfold upd_node, get_node. destruct (t_nodes s !! i) as [nd|]; cbn [rbind]; [|done].
  intros [= <-]. by exists nd.
Qed.
Lemma get_Ok (s : tree) i nd : get_node s i = Ok nd -> t_nodes s !! i = Some nd.
Proof. unfold get_node. destruct (t_nodes s !! i); [by intros [= ->]|done]. Qed.
Lemma get_cnt (s : tree) i nd : get_node s i = Ok nd -> cnt s i = n_cnt nd.
Proof. intros H%get_Ok. unfold cnt. by rewrite H. Qed.

Lemma cnt_upd (s : tree) i x j :
  cnt (with_nodes s (<[i := x]> (t_nodes s))) j = if decide (j = i) then n_cnt x else cnt s j.
Proof.
  unfold cnt, with_nodes. cbn [t_nodes]. destruct (decide (j = i)) as [->|Hj].
  - by rewrite lookup_insert.
  - by rewrite lookup_insert_ne.
Qed.
Lemma dom_upd (s : tree) i nd x : (forall i, t_n s <= i -> t_nodes s !! i = None) -> t_nodes s !! i = Some nd ->
  forall j, t_n s <= j -> <[i := x]> (t_nodes s) !! j = None.
Proof.
  intros Hd Hi j Hj. destruct (decide (j = i)) as [->|Hji]; [|rewrite lookup_insert_ne by done; by apply Hd].
  by rewrite (Hd i Hj) in Hi.
Qed.

(** Same counts and values. *)
Definition alike (s s' : tree) : Prop :=
  t_length s' = t_length s /\ t_vals s' = t_vals s /\ (forall i, cnt s' i = cnt s i) /\
  ((forall i, t_n s <= i -> t_nodes s !! i = None) -> forall i, t_n s' <= i -> t_nodes s' !! i = None).
Lemma alike_refl s : alike s s.
Proof. by repeat split. Qed.
Lemma alike_trans s1 s2 s3 : alike s1 s2 -> alike s2 s3 -> alike s1 s3.
Proof.
  intros (A1 & A2 & A3 & A4) (B1 & B2 & B3 & B4). split; [congruence|]. split; [congruence|].
  split; [intros i; by rewrite B3|auto].
Qed.
Lemma tidy_alike (s s' : tree) : alike s s' -> tidy s -> tidy s'.
Proof.
  intros (Hl & Hv & Hc & Hd) [H1 H2 H4]. split.
  - intros k. rewrite Hv. intros (i & j & Hj & ->)%H1. exists i, j. rewrite Hc. split; [done|]. symmetry. by apply slot_ctl.
  - intros i j. rewrite Hc, Hv, (slot_ctl s s') by done. apply H2.
  - auto.
Qed.

(** A node gets new fields, but the same count. *)
Definition keeps (f : node -> node) : Prop := forall nd, n_cnt (f nd) = n_cnt nd.
Lemma upd_alike s s' i f : keeps f -> upd_node s i f = Ok s' -> alike s s' /\ t_avail s' = t_avail s /\ (small s -> small s').
Proof.
  intros Hf (nd & Hi & ->)%upd_Ok. split; [|split; [done|]].
  - split; [done|]. split; [done|]. split.
    + intros j. rewrite cnt_upd. destruct (decide _) as [->|]; [|done]. rewrite Hf. unfold cnt. by rewrite Hi.
    + intros Hd. cbn. by apply (dom_upd s i nd).
  - intros [Hl Hs]. split; [done|]. cbn. intros j n. destruct (decide (j = i)) as [->|Hj].
    + rewrite lookup_insert. intros [= <-]. rewrite Hf. by apply Hs.
    + rewrite lookup_insert_ne by done. apply Hs.
Qed.

(** newNode. *)
Lemma new_alike s s' x l i : tidy s -> idle s -> new_node s x l = Ok (s', i) -> alike s s' /\ idle s'.
Proof.
  intros Ht [Hz Hi]. unfold new_node. destruct (t_avail s) as [|a av] eqn:Hav.
  - intros [= <- <-]. assert (Hn : t_nodes s !! t_n s = None) by (apply Ht; lia).
    assert (Hc : forall j, cnt (Tree (t_leftfn s) (t_length s) (<[t_n s := Node 0 0 (i_id x) l 0]> (t_nodes s)) (t_n s + 1)
      (if t_cap s <=? t_n s then t_n s + 1 else t_cap s) [] (t_vals s)
      (if t_cap s <=? t_n s then t_gen s + 1 else t_gen s)) j = cnt s j).
    { intros j. unfold cnt. cbn [t_nodes]. destruct (decide (j = t_n s)) as [->|Hj].
      - by rewrite lookup_insert, Hn.
      - by rewrite lookup_insert_ne. }
    split; [split; [done|split; [done|split; [done|]]]|].
    + cbn. intros Hd j Hj. rewrite lookup_insert_ne by lia. apply Hd. lia.
    + split; [by rewrite Hc|]. intros j Hj. by apply elem_of_nil in Hj.
  - destruct (upd_node _ a _) as [s1| |] eqn:Hu; cbn [rbind]; [|done|done]. intros [= <- <-].
    apply upd_Ok in Hu as (nd & Ha & ->). cbn [with_avail t_nodes] in Ha.
    assert (Hc : forall j, cnt (with_nodes (with_avail s av) (<[a := Node 0 0 (i_id x) l 0]> (t_nodes (with_avail s av)))) j = cnt s j).
    { intros j. rewrite cnt_upd. destruct (decide _) as [->|]; [|done]. cbn. symmetry. apply Hi. left. }
    split; [split; [done|split; [done|split; [done|]]]|].
    + intros Hd. cbn. by apply (dom_upd s a nd).
    + split; [by rewrite Hc|]. intros j Hj. rewrite Hc. apply Hi. by right.
Qed.

Lemma find_match_lt s m v i k n r : find_match zero s m v i k n = Some r -> r < k + N.of_nat n.
Proof.
  revert k. induction n as [|n IH]; intros k; cbn [find_match]; [done|].
  destruct (m _ v); [intros [= <-]; lia|]. intros H%IH. lia.
Qed.

(** addVal. *)
Lemma tidy_add_val s s' v i mf uf b : tidy s -> add_val zero s v i mf uf = Ok (s', b) ->
  tidy s' /\ t_length s' = t_length s /\ t_avail s' = t_avail s /\ (forall j, j <> i -> cnt s' j = cnt s j).
Proof.
  intros Ht. unfold add_val. destruct (get_node s i) as [nd| |] eqn:Hg; cbn [rbind]; [|done|done].
  pose proof (get_cnt _ _ _ Hg) as Hci. apply get_Ok in Hg.
  destruct (match mf with None => None | Some m => _ end) as [k|] eqn:Hm.
  - intros [= <- <-]. assert (Hk : k < cnt s i).
    { rewrite Hci. destruct mf as [m|]; [|done]. apply find_match_lt in Hm. lia. }
    destruct uf as [u|]; [|done]. split; [|done]. destruct Ht as [H1 H2 H4].
    split; cbn [with_vals t_vals t_avail t_n t_nodes].
    + intros k'. destruct (decide (k' = slot s i k)) as [->|Hne].
      * intros _. exists i, k. done.
      * rewrite lookup_insert_ne by done. apply H1.
    + intros i' j' Hj. change (slot (with_vals s _) i' j') with (slot s i' j').
      destruct (decide (slot s i' j' = slot s i k)) as [->|Hne].
      * rewrite lookup_insert. by eexists.
      * rewrite lookup_insert_ne by done. by apply H2.
    + done.
  - destruct (upd_node _ i _) as [s2| |] eqn:Hu; cbn [rbind]; [|done|done]. intros [= <- <-].
    apply upd_Ok in Hu as (nd' & Hi & ->). cbn [with_vals t_nodes] in Hi. rewrite Hg in Hi. injection Hi as <-.
    destruct Ht as [H1 H2 H4].
    set (s1 := with_vals s _).
    assert (Hc : forall j, cnt (with_nodes s1 (<[i := set_cnt (n_cnt nd + 1) nd]> (t_nodes s1))) j =
      if decide (j = i) then n_cnt nd + 1 else cnt s j) by (intros j; apply (cnt_upd s1 i)).
    split; [|split; [done|split; [done|intros j Hj; by rewrite Hc, decide_False]]].
    split.
    + intros k'. cbn [with_nodes t_vals s1 with_vals].
      destruct (decide (k' = slot s i (n_cnt nd))) as [->|Hne].
      * intros _. exists i, (n_cnt nd). rewrite Hc, decide_True by done. split; [lia|done].
      * rewrite lookup_insert_ne by done. intros (i' & j' & Hj & ->)%H1. exists i', j'. rewrite Hc.
        split; [|done]. destruct (decide _) as [->|]; lia.
    + intros i' j'. rewrite Hc. cbn [with_nodes t_vals s1 with_vals].
      change (slot (with_nodes s1 _) i' j') with (slot s i' j').
      destruct (decide (slot s i' j' = slot s i (n_cnt nd))) as [->|Hne].
      { rewrite lookup_insert. by eexists. }
      rewrite lookup_insert_ne by done. intros Hj. apply H2. destruct (decide (i' = i)) as [->|]; [|done].
      destruct (decide (j' = n_cnt nd)) as [->|]; [done|]. lia.
    + cbn [with_nodes s1 with_vals t_nodes t_n]. by apply (dom_upd s i nd).
Qed.

Ltac rstep H := match type of H with
  | rbind ?e _ = Ok _ => let E := fresh "E" in destruct e as [?| |] eqn:E; cbn [rbind] in H; [|discriminate H|discriminate H]
  | (if ?b then _ else _) = Ok _ => let E := fresh "B" in destruct b eqn:E
  end.
Ltac pairs := repeat match goal with x : _ * _ |- _ => destruct x; cbn [fst snd] in * end.

Lemma tidy_leaf s p d x v mf uf s' r : tidy s -> idle s -> add_leaf zero s p d x v mf uf = Ok (s', r) -> tidy s'.
Proof.
  intros Ht Hi H. unfold add_leaf in H. do 4 rstep H. pairs. injection H as <- _.
  apply new_alike in E as [A1 _]; [|done|done]. apply tidy_add_val in E0 as [A2 _]; [|by eapply tidy_alike].
  apply upd_alike in E1 as [A3 _]; [|by destruct d]. by eapply tidy_alike.
Qed.

Lemma replace_alike s p i j s' : replace_child s p i j = Ok s' -> alike s s'.
Proof.
  unfold replace_child. intros H. do 2 rstep H; [by apply upd_alike in H as [? _]|].
  rstep H; [by apply upd_alike in H as [? _]|done].
Qed.

Lemma tidy_loop fuel : forall s p i x v mf uf s' r, tidy s -> idle s ->
  add_loop zero c fuel s p i x v mf uf = Ok (s', r) -> tidy s'.
Proof.
  induction fuel as [|fuel IH]; intros s p i x v mf uf s' r Ht Hi H; cbn [add_loop] in H; [done|].
  rstep H; [done|]. rstep H. rstep H; [done|]. rstep H; [done|]. rstep H.
  - rstep H.
    + do 2 rstep H. pairs. injection H as <- _. by apply tidy_add_val in E0 as [? _].
    + do 8 rstep H. pairs. injection H as <- _.
      apply new_alike in E0 as [A1 _]; [|done|done]. apply tidy_add_val in E1 as [A2 _]; [|by eapply tidy_alike].
      apply upd_alike in E2 as [A3 _]; [|done]. apply upd_alike in E5 as [A4 _]; [|by destruct a4].
      apply replace_alike in E6. eapply tidy_alike; [|exact A2]. eauto using alike_trans.
  - rstep H.
    + rstep H; rstep H; [by eapply tidy_leaf|by eapply IH|by eapply tidy_leaf|by eapply IH].
    + do 9 rstep H. pairs. injection H as <- _.
      apply new_alike in E0 as [A1 I1]; [|done|done].
      apply new_alike in E1 as [A1' _]; [|by eapply tidy_alike|done].
      apply tidy_add_val in E2 as [A2 _]; [|by do 2 (eapply tidy_alike; [done|])].
      apply upd_alike in E3 as [A3 _]; [|done]. apply upd_alike in E6 as [A4 _]; [|by destruct a5].
      apply replace_alike in E7. eapply tidy_alike; [|exact A2]. eauto using alike_trans.
Qed.

Lemma tidy_add s x v mf uf s' r : tidy s -> idle s -> tree_add zero c s x v mf uf = Ok (s', r) -> tidy s'.
Proof.
  intros Ht0 Hi0 H. unfold tree_add in H. cbv zeta in H.
  destruct (reserve_fields s) as (_ & R2 & R3 & R4).
  assert (Ht : tidy (reserve s)).
  { eapply tidy_alike; [|exact Ht0]. unfold reserve. by destruct (_ <? _). }
  assert (Hi : idle (reserve s)).
  { unfold idle, cnt in *. rewrite R3, R4. done. }
  set (s0 := reserve s) in *. clearbody s0. rstep H. rstep H.
  - do 2 rstep H. pairs. injection H as <- _. by apply tidy_add_val in E0 as [? _].
  - rstep H; rstep H; [by eapply tidy_leaf|by eapply tidy_loop|by eapply tidy_leaf|by eapply tidy_loop].
Qed.

(** moveTags. *)
Lemma move_ctl n : forall (s : tree) a b k,
  t_nodes (move_loop zero s a b k n) = t_nodes s /\ t_length (move_loop zero s a b k n) = t_length s /\
  t_avail (move_loop zero s a b k n) = t_avail s /\ t_n (move_loop zero s a b k n) = t_n s.
Proof.
  induction n as [|n IH]; intros s a b k; cbn [move_loop]; [done|].
  by destruct (IH (with_vals s (delete (slot s a k) (<[slot s b k := val_at zero s (slot s a k)]> (t_vals s)))) a b (k + 1)).
Qed.
Lemma move_dom n : forall (s : tree) a b k x,
  (forall j j', k <= j < k + N.of_nat n -> k <= j' < k + N.of_nat n -> slot s a j <> slot s b j') ->
  is_Some (t_vals (move_loop zero s a b k n) !! x) <->
  (exists j, k <= j < k + N.of_nat n /\ x = slot s b j) \/
  (is_Some (t_vals s !! x) /\ forall j, k <= j < k + N.of_nat n -> x <> slot s a j).
Proof.
  induction n as [|n IH]; intros s a b k x Hd; cbn [move_loop].
  { split; [intros H; right; split; [done|lia]|]. intros [(j & Hj & _)|[H _]]; [lia|done]. }
  set (s1 := with_vals s _).
  rewrite IH by (intros j j' Hj Hj'; apply Hd; lia).
  change (slot s1) with (slot s). cbn [s1 with_vals t_vals]. split.
  - intros [(j & Hj & ->)|[Hx Hne]]; [left; exists j; split; [lia|done]|].
    destruct (decide (x = slot s a k)) as [->|Hxa]; [rewrite lookup_delete in Hx; by destruct Hx|].
    rewrite lookup_delete_ne in Hx by done.
    destruct (decide (x = slot s b k)) as [->|Hxb]; [left; exists k; split; [lia|done]|].
    rewrite lookup_insert_ne in Hx by done. right. split; [done|]. intros j Hj.
    destruct (decide (j = k)) as [->|]; [done|]. apply Hne. lia.
  - intros [(j & Hj & ->)|[Hx Hne]].
    + destruct (decide (j = k)) as [->|Hjk]; [|left; exists j; split; [lia|done]].
      right. split; [|intros j' Hj'; apply not_eq_sym, Hd; lia].
      rewrite lookup_delete_ne by (apply Hd; lia). rewrite lookup_insert. by eexists.
    + right. split; [|intros j Hj; apply Hne; lia]. rewrite lookup_delete_ne by (apply not_eq_sym, Hne; lia).
      destruct (decide (x = slot s b k)) as [->|Hxb]; [rewrite lookup_insert; by eexists|].
      by rewrite lookup_insert_ne.
Qed.

Lemma small_cfg s : small s -> forall i j k l, i < K -> k < K -> j < 2 ^ w -> l < 2 ^ w ->
  slot s i j = slot s k l -> i = k /\ j = l.
Proof.
  intros [Hl _] i j k l Hi Hk Hj Hl' H. set (s0 := tree_zero c : tree).
  assert (Hs0 : t_length s = t_length s0) by done.
  rewrite !(slot_ctl s0 s) in H by done. by apply (slot_inj c s0).
Qed.
Lemma small_cnt s i j : small s -> j < cnt s i -> i < K /\ j < 2 ^ w.
Proof.
  intros [_ Hs]. unfold cnt. destruct (t_nodes s !! i) as [nd|] eqn:Hi; [|lia].
  intros Hj. destruct (Hs i nd Hi). split; [done|]. by eapply N.lt_le_trans.
Qed.

Lemma tidy_move s a b s' : tidy s -> small s -> cnt s b = 0 -> move_tags zero s a b = Ok s' ->
  tidy s' /\ t_avail s' = t_avail s /\ (forall j, j <> b -> j <> a -> cnt s' j = cnt s j) /\ cnt s' a = 0.
Proof.
  intros Ht Hs Hb H. unfold move_tags in H. rstep H. rename a0 into na. pose proof (get_cnt _ _ _ E) as Hca.
  apply get_Ok in E. destruct (move_ctl (N.to_nat (n_cnt na)) s a b 0) as (M1 & M2 & M3 & M4).
  rstep H. rename a0 into s2. apply upd_Ok in E0 as (nb & Hnb & ->). apply upd_Ok in H as (na' & Hna & ->).
  rewrite M1 in Hnb. cbn [with_nodes t_nodes] in Hna.
  set (s1 := move_loop zero s a b 0 (N.to_nat (n_cnt na))) in *.
  set (s2 := with_nodes s1 _) in *.
  assert (Hcb : n_cnt nb = 0) by (unfold cnt in Hb; by rewrite Hnb in Hb).
  assert (Hc : forall j, cnt (with_nodes s2 (<[a := set_cnt 0 na']> (t_nodes s2))) j =
    if decide (j = a) then 0 else if decide (j = b) then cnt s a else cnt s j).
  { intros j. rewrite cnt_upd. destruct (decide (j = a)); [done|]. unfold s2. rewrite cnt_upd.
    destruct (decide (j = b)); [cbn; lia|]. unfold cnt. by rewrite M1. }
  split; [|split; [done|split]].
  2: { intros j H1 H2. by rewrite Hc, !decide_False. }
  2: { by rewrite Hc, decide_True. }
  assert (Hsl : forall i j, slot (with_nodes s2 (<[a := set_cnt 0 na']> (t_nodes s2))) i j = slot s i j).
  { intros i j. by apply slot_ctl. }
  assert (Hdis : a <> b -> forall j j', 0 <= j < 0 + N.of_nat (N.to_nat (n_cnt na)) ->
    0 <= j' < 0 + N.of_nat (N.to_nat (n_cnt na)) -> slot s a j <> slot s b j').
  { intros Hab j j' Hj Hj' He.
    assert (Hja : j < cnt s a) by lia. assert (Hja' : j' < cnt s a) by lia.
    destruct (small_cnt s a j Hs Hja) as [HaK Hjw]. destruct (small_cnt s a j' Hs Hja') as [_ Hjw'].
    assert (HbK : b < K) by (by eapply Hs).
    by destruct (small_cfg s Hs a j b j' HaK HbK Hjw Hjw' He). }
  destruct Ht as [H1 H2 H4]. split.
  - intros k Hk. change (is_Some (t_vals s1 !! k)) in Hk. destruct (decide (a = b)) as [<-|Hab].
    { assert (Hn0 : N.to_nat (n_cnt na) = O) by lia. unfold s1 in Hk. rewrite Hn0 in Hk. cbn [move_loop] in Hk.
      apply H1 in Hk as (i & j & Hj & ->). exists i, j. rewrite Hc, Hsl. split; [|done].
      destruct (decide (i = a)) as [->|]; [lia|done]. }
    unfold s1 in Hk. apply move_dom in Hk; [|by apply Hdis].
    destruct Hk as [(j & Hj & ->)|[Hk Hne]].
    + exists b, j. rewrite Hc, Hsl, decide_False, decide_True by done. split; [lia|done].
    + apply H1 in Hk as (i & j & Hj & ->). exists i, j. rewrite Hc, Hsl. split; [|done].
      destruct (decide (i = a)) as [->|]; [exfalso; apply (Hne j); [lia|done]|].
      destruct (decide (i = b)) as [->|]; [lia|done].
  - intros i j. rewrite Hc, Hsl. change (t_vals (with_nodes s2 _)) with (t_vals s1).
    destruct (decide (i = a)) as [->|Hia]; [lia|]. destruct (decide (a = b)) as [<-|Hab].
    { rewrite decide_False by done. assert (Hn0 : N.to_nat (n_cnt na) = O) by lia. unfold s1. rewrite Hn0. cbn [move_loop].
      apply H2. }
    intros Hj. unfold s1. apply move_dom; [by apply Hdis|]. destruct (decide (i = b)) as [->|Hib].
    + left. exists j. split; [lia|done].
    + right. split; [by apply H2|]. intros j' Hj' He. apply Hia.
      destruct (small_cnt s i j Hs Hj) as [HiK Hjw]. assert (Hja' : j' < cnt s a) by lia.
      destruct (small_cnt s a j' Hs Hja') as [HaK Hjw'].
      by destruct (small_cfg s Hs i j a j' HiK HaK Hjw Hjw' He).
  - intros i Hi. change (t_n s1 <= i) in Hi. rewrite M4 in Hi.
    change (<[a := set_cnt 0 na']> (t_nodes s2) !! i = None). apply (dom_upd s2 a na'); [|exact Hna|by cbn; rewrite M4].
    intros i' Hi'. change (t_n s1 <= i') in Hi'. cbn. rewrite M1. apply (dom_upd s b nb); [exact H4|done|by rewrite <- M4].
Qed.

(** deleteVal. *)
Lemma slots_ctl n : forall (s : tree) i k,
  t_nodes (delete_slots s i k n) = t_nodes s /\ t_length (delete_slots s i k n) = t_length s /\
  t_avail (delete_slots s i k n) = t_avail s /\ t_n (delete_slots s i k n) = t_n s.
Proof.
  induction n as [|n IH]; intros s i k; cbn [delete_slots]; [done|].
  by destruct (IH (with_vals s (delete (slot s i k) (t_vals s))) i (k + 1)).
Qed.
Lemma slots_dom n : forall (s : tree) i k x, is_Some (t_vals (delete_slots s i k n) !! x) <->
  is_Some (t_vals s !! x) /\ forall j, k <= j < k + N.of_nat n -> x <> slot s i j.
Proof.
  induction n as [|n IH]; intros s i k x; cbn [delete_slots].
  { split; [intros H; split; [done|lia]|tauto]. }
  rewrite IH. change (slot (with_vals s (delete (slot s i k) (t_vals s)))) with (slot s). cbn [with_vals t_vals]. split.
  - intros [Hx Hne]. destruct (decide (x = slot s i k)) as [->|Hxa]; [rewrite lookup_delete in Hx; by destruct Hx|].
    rewrite lookup_delete_ne in Hx by done. split; [done|]. intros j Hj.
    destruct (decide (j = k)) as [->|]; [done|]. apply Hne. lia.
  - intros [Hx Hne]. rewrite lookup_delete_ne by (apply not_eq_sym, Hne; lia). split; [done|]. intros j Hj. apply Hne. lia.
Qed.

Lemma tidy_put_back mf v i buf : forall s d k s' d' k', tidy s -> put_back zero s i mf v buf d k = Ok (s', (d', k')) ->
  tidy s' /\ t_avail s' = t_avail s /\ (forall j, j <> i -> cnt s' j = cnt s j) /\ k <= k' /\ (k' = k -> s' = s).
Proof.
  induction buf as [|x buf IH]; intros s d k s' d' k' Ht H; cbn [put_back] in H.
  { injection H as <- <- <-. split; [done|]. split; [done|]. split; [done|]. split; [lia|done]. }
  destruct (mf x v); [by eapply IH|]. rstep H. pairs.
  apply tidy_add_val in E as (A1 & A2 & A3 & A4); [|done].
  apply IH in H as (B1 & B3 & B4 & B5 & B6); [|done]. split; [done|]. split; [congruence|].
  split; [intros j Hj; by rewrite B4, A4|]. split; [lia|]. intros ->. lia.
Qed.

Lemma tidy_delete_val s i v mf s' d k : tidy s -> small s -> i <> 0 -> delete_val zero s i v mf = Ok (s', (d, k)) ->
  tidy s' /\ t_avail s' = t_avail s /\ (forall j, j <> i -> cnt s' j = cnt s j) /\
  (k = 0 -> cnt s' i = 0 /\ small s').
Proof.
  intros Ht Hs Hi0 H. unfold delete_val in H. rstep H.
  destruct a as [|v0 vs].
  { injection H as <- <- <-. split; [done|]. split; [done|]. split; [done|]. intros _. split; [|done].
    unfold vals_for_node in E. rewrite (proj2 (N.eqb_neq _ _) Hi0) in E. destruct (get_node s i) as [nd| |] eqn:Hg; cbn [rbind] in E; [|done|done].
    apply get_cnt in Hg. rewrite Hg. injection E as E. apply (f_equal length) in E. rewrite fmap_length, seq_length in E.
    cbn in E. lia. }
  rstep H. rename a into nd. pose proof (get_cnt _ _ _ E0) as Hci. apply get_Ok in E0.
  rstep H. rename a into s2. apply upd_Ok in E1 as (nd' & Hnd & ->).
  destruct (slots_ctl (N.to_nat (n_cnt nd)) s i 0) as (M1 & M2 & M3 & M4). rewrite M1, E0 in Hnd. injection Hnd as <-.
  set (s1 := delete_slots s i 0 (N.to_nat (n_cnt nd))) in *. set (s2 := with_nodes s1 _) in *.
  assert (Hc : forall j, cnt s2 j = if decide (j = i) then 0 else cnt s j).
  { intros j. unfold s2. rewrite cnt_upd. destruct (decide (j = i)); [done|]. unfold cnt. by rewrite M1. }
  assert (Hsl : forall i j, slot s2 i j = slot s i j) by (intros; by apply slot_ctl).
  assert (Hs2 : small s2).
  { destruct Hs as [Hl Hs]. split; [by cbn; rewrite M2|]. intros j n. cbn. rewrite M1. destruct (decide (j = i)) as [->|Hj].
    - rewrite lookup_insert. intros [= <-]. cbn. split; [by eapply Hs|]. apply N.le_0_l.
    - rewrite lookup_insert_ne by done. apply Hs. }
  assert (Ht2 : tidy s2).
  { destruct Ht as [H1 H2 H4]. split.
    - intros x Hx. change (is_Some (t_vals s1 !! x)) in Hx. apply slots_dom in Hx as [Hx Hne].
      apply H1 in Hx as (i' & j & Hj & ->). exists i', j. rewrite Hc, Hsl. split; [|done].
      destruct (decide (i' = i)) as [->|]; [exfalso; apply (Hne j); [lia|done]|done].
    - intros i' j. rewrite Hc, Hsl. destruct (decide (i' = i)) as [->|Hii]; [lia|]. intros Hj.
      change (is_Some (t_vals s1 !! slot s i' j)). apply slots_dom. split; [by apply H2|]. intros j' Hj' He. apply Hii.
      destruct (small_cnt s i' j Hs Hj) as [HiK Hjw]. assert (Hja' : j' < cnt s i) by lia.
      destruct (small_cnt s i j' Hs Hja') as [HaK Hjw'].
      by destruct (small_cfg s Hs i' j i j' HiK HaK Hjw Hjw' He).
    - intros j Hj. change (t_n s1 <= j) in Hj. rewrite M4 in Hj. cbn. rewrite M1. by apply (dom_upd s i nd). }
  apply tidy_put_back in H as (B1 & B3 & B4 & B5 & B6); [|done].
  split; [done|]. split; [by rewrite B3|]. split; [intros j Hj; by rewrite B4, Hc, decide_False|].
  intros Hk. rewrite (B6 Hk). split; [|done]. by rewrite Hc, decide_True.
Qed.

(** deleteNode. *)
Lemma lift_alike s t p ch s' : lift_child s t p ch = Ok s' -> alike s s' /\ t_avail s' = t_avail s.
Proof.
  unfold lift_child. intros H. do 5 rstep H.
  apply upd_alike in E0 as (A1 & A2 & _); [|by destruct (_ =? _)]. apply upd_alike in H as (B1 & B2 & _); [|done].
  split; [by eapply alike_trans|congruence].
Qed.

Lemma tidy_merge s p sb s' : tidy s -> small s -> cnt s p = 0 -> merge_sibling zero s p sb = Ok s' ->
  tidy s' /\ t_avail s' = sb :: t_avail s /\ cnt s' sb = 0 /\ (forall j, j <> p -> cnt s j = 0 -> cnt s' j = 0).
Proof.
  intros Ht Hs Hp H. unfold merge_sibling in H. do 7 rstep H. injection H as <-.
  apply upd_alike in E2 as (A1 & A2 & A3); [|done].
  apply tidy_move in E3 as (B1 & B2 & B3 & B4); [|by eapply tidy_alike|auto|by rewrite (proj1 (proj2 (proj2 A1)))].
  apply upd_alike in E5 as (C1 & C2 & _); [|done].
  split; [|split; [cbn; congruence|split]].
  - eapply (tidy_alike a5); [by repeat split|]. by eapply tidy_alike.
  - change (cnt a5 sb = 0). by rewrite (proj1 (proj2 (proj2 C1))).
  - intros j Hj Hz. change (cnt a5 j = 0). rewrite (proj1 (proj2 (proj2 C1))).
    destruct (decide (j = sb)) as [->|]; [done|]. by rewrite B3, (proj1 (proj2 (proj2 A1))).
Qed.

Lemma tidy_delete_node s t p s' : tidy s -> small s -> cnt s t = 0 -> t <> 0 -> delete_node zero s t p = Ok s' ->
  tidy s' /\ exists fr, t_avail s' = fr ++ t_avail s /\ forall j, j ∈ fr -> cnt s' j = 0.
Proof.
  intros Ht Hs Hc0 Ht0 H. unfold delete_node in H.
  assert (Hrefl : tidy s /\ exists fr, t_avail s = fr ++ t_avail s /\ forall j, j ∈ fr -> cnt s j = 0).
  { split; [done|]. exists []. split; [done|]. intros j Hj. by apply elem_of_nil in Hj. }
  rstep H; [by injection H as <-|]. rstep H. rename a into tn. rstep H; [by injection H as <-|]. clear Hrefl.
  rstep H. rename a into s1. rstep H. rename a into s2. injection H as <-.
  apply upd_alike in E1 as (A1 & A2 & _); [|done].
  assert (Hs1 : tidy s1 /\ cnt s1 t = 0 /\ exists fr, t_avail s1 = fr ++ t_avail s /\ forall j, j ∈ fr -> cnt s1 j = 0).
  { clear A1 A2. assert (Hal : forall s1, alike s s1 -> t_avail s1 = t_avail s ->
      tidy s1 /\ cnt s1 t = 0 /\ exists fr, t_avail s1 = fr ++ t_avail s /\ forall j, j ∈ fr -> cnt s1 j = 0).
    { intros s3 H1 H2. split; [by eapply tidy_alike|]. split; [by rewrite (proj1 (proj2 (proj2 H1)))|].
      exists []. split; [done|]. intros j Hj. by apply elem_of_nil in Hj. }
    rstep E0; [apply lift_alike in E0 as [? ?]; by apply Hal|].
    rstep E0; [apply lift_alike in E0 as [? ?]; by apply Hal|].
    rstep E0. rename a into pn.
    assert (Hm : forall s3 sb, alike s s3 -> t_avail s3 = t_avail s -> small s3 -> n_cnt pn = 0 -> t <> p ->
      merge_sibling zero s3 p sb = Ok s1 ->
      tidy s1 /\ cnt s1 t = 0 /\ exists fr, t_avail s1 = fr ++ t_avail s /\ forall j, j ∈ fr -> cnt s1 j = 0).
    { intros s3 sb H1 H2 H3 H4 H5 H6. apply get_cnt in E1.
      apply tidy_merge in H6 as (M1 & M2 & M3 & M4); [|by eapply tidy_alike|done|rewrite (proj1 (proj2 (proj2 H1))); congruence].
      split; [done|]. split; [apply M4; [done|by rewrite (proj1 (proj2 (proj2 H1)))]|].
      exists [sb]. split; [by rewrite M2, H2|]. intros j Hj. by apply elem_of_list_singleton in Hj as ->. }
    assert (Htp : t = p -> n_left pn = 0 /\ n_right pn = 0).
    { intros ->. rewrite E in E1. injection E1 as <-. lia. }
    rstep E0.
    - rstep E0. rename a into s3. apply upd_alike in E2 as (C1 & C2 & C3); [|done].
      rstep E0; [|injection E0 as <-; by apply Hal].
      apply (Hm s3 (n_right pn)); try done; [auto|lia|]. intros Htp'. destruct (Htp Htp'). lia.
    - rstep E0. rename a into s3. apply upd_alike in E2 as (C1 & C2 & C3); [|done].
      rstep E0; [|injection E0 as <-; by apply Hal].
      apply (Hm s3 (n_left pn)); try done; [auto|lia|]. intros Htp'. destruct (Htp Htp'). lia. }
  destruct Hs1 as (H1 & H2 & fr & H3 & H4). split.
  - eapply (tidy_alike s2); [by repeat split|]. by eapply tidy_alike.
  - exists (t :: fr). split; [cbn; by rewrite A2, H3|]. intros j Hj. change (cnt s2 j = 0).
    rewrite (proj1 (proj2 (proj2 A1))). apply elem_of_cons in Hj as [->|Hj]; [done|by apply H4].
Qed.

Lemma find_nz fuel : forall (s : tree) p i x t p', del_find c fuel s p i x = Ok (Some (t, p')) -> t <> 0.
Proof.
  induction fuel as [|fuel IH]; intros s p i x t p' H; cbn [del_find] in H; [done|].
  rstep H; [done|]. rstep H. rstep H; [done|]. rstep H; [injection H as <- <-; lia|by eapply IH].
Qed.

Lemma tidy_Delete s x mf v s' r : tidy s -> small s -> tree_Delete zero c s x mf v = Ok (s', r) ->
  tidy s' /\ exists fr, t_avail s' = fr ++ t_avail s /\ forall j, j ∈ fr -> cnt s' j = 0.
Proof.
  intros Ht Hs H. unfold tree_Delete in H. rstep H. rstep H. rename a0 into target.
  assert (Hrefl : tidy s /\ exists fr, t_avail s = fr ++ t_avail s /\ forall j, j ∈ fr -> cnt s j = 0).
  { split; [done|]. exists []. split; [done|]. intros j Hj. by apply elem_of_nil in Hj. }
  destruct target as [[t p]|]; [|by injection H as <- _].
  assert (Ht0 : t <> 0).
  { rstep E0; [by injection E0 as <- _|by eapply find_nz]. }
  rstep H. rstep H; [by injection H as <- _|]. rstep H. destruct a1 as [s1 [del keep]].
  apply tidy_delete_val in E2 as (A1 & A2 & A3 & A4); [|done..]. rstep H.
  - injection H as <- _. split; [done|]. exists []. split; [done|]. intros j Hj. by apply elem_of_nil in Hj.
  - rstep H. injection H as <- _. destruct A4 as [A4 A5]; [lia|].
    apply tidy_delete_node in E2 as (B1 & fr & B2 & B3); [|done..]. split; [done|]. exists fr. by rewrite B2, A2.
Qed.

(** Every node of the trie is small. *)
Lemma rep_at s i t j nd : rep zero c s i t -> j ∈ fp t -> t_nodes s !! j = Some nd -> n_cnt nd <= 2 ^ w.
Proof.
  revert i. induction t as [|k b vs l IHl r IHr]; intros i; cbn [rep fp]; [by rewrite elem_of_nil|].
  intros (-> & H1 & H2 & H3 & nd' & N1 & N2 & N3 & N4 & N5 & N6 & N7).
  rewrite elem_of_cons, elem_of_app. intros [->|[Hj|Hj]]; [|by eapply IHl|by eapply IHr].
  rewrite N1. intros [= <-]. by rewrite N4.
Qed.

Lemma inv_small s t : inv zero c s t -> idle s -> small s.
Proof.
  intros Hi [Hz Hav]. pose proof Hi as [Hc Ha Hr Hwf Hnd Hlv Hct]. split; [apply Hc|].
  intros i nd Hn. assert (Hin : i < t_n s) by (apply (ao_dom _ _ Ha); by eexists).
  split; [pose proof (ao_K _ _ Ha); lia|].
  assert (Hci : cnt s i = n_cnt nd) by (unfold cnt; by rewrite Hn).
  destruct (decide (i = 0)) as [->|Hi0]; [rewrite <- Hci, Hz; apply N.le_0_l|].
  destruct (decide (i ∈ t_avail s)) as [Hia|Hia]; [rewrite <- Hci, (Hav i Hia); apply N.le_0_l|].
  by apply (rep_at s 1 t i nd Hr (inv_all zero c s t i Hi Hin Hi0 Hia)).
Qed.
End Vals.
